From Verif Require Import Base Lf_Model Lf_Spec Str_Spec Str_Props.
From Coq Require Import Sorting.Permutation Sorting.Sorted DecimalString DecimalNat Decimal DecimalFacts NArith Lia.
Import Datatypes List.
Local Open Scope list_scope.

(** ** repr of texts *)
Lemma esc_nonempty q c : esc q c <> [].
Proof. unfold esc. repeat match goal with |- context [if ?b then _ else _] => destruct b end; discriminate. Qed.
Lemma esc_length q c : length (esc q c) <= 4.
Proof. unfold esc. repeat match goal with |- context [if ?b then _ else _] => destruct b end; cbn; lia. Qed.
Lemma quote_cases s : quote s = sq \/ quote s = dq.
Proof. unfold quote. destruct (_ && _); tauto. Qed.

(** reading one escaped character back *)
Definition unhex (c : ascii) : N := let n := N_of_ascii c in if N.ltb n 58 then n - 48 else n - 87.
Definition unesc1 (s : str) : option (ascii * str) :=
  match s with
  | [] => None
  | c :: r =>
      if Ascii.eqb c "\" then
        match r with
        | [] => None
        | d :: r' =>
            if Ascii.eqb d "t" then Some ("009"%char, r') else if Ascii.eqb d "n" then Some ("010"%char, r')
            else if Ascii.eqb d "r" then Some ("013"%char, r')
            else if Ascii.eqb d "x" then match r' with h :: l :: r2 => Some (ascii_of_N (16 * unhex h + unhex l), r2) | _ => None end
            else Some (d, r')
        end
      else Some (c, r)
  end.
Lemma unesc1_sq c r : unesc1 (esc sq c ++ r) = Some (c, r).
Proof. destruct c as [b0 b1 b2 b3 b4 b5 b6 b7]. destruct b0, b1, b2, b3, b4, b5, b6, b7; reflexivity. Qed.
Lemma unesc1_dq c r : unesc1 (esc dq c ++ r) = Some (c, r).
Proof. destruct c as [b0 b1 b2 b3 b4 b5 b6 b7]. destruct b0, b1, b2, b3, b4, b5, b6, b7; reflexivity. Qed.
Lemma unesc1_esc q c r : q = sq \/ q = dq -> unesc1 (esc q c ++ r) = Some (c, r).
Proof. intros [-> | ->]; [apply unesc1_sq|apply unesc1_dq]. Qed.
Lemma escapes_inj q : q = sq \/ q = dq -> forall s s', flat_map (esc q) s = flat_map (esc q) s' -> s = s'.
Proof.
  intros hq. induction s as [|c s IH]; intros [|c' s'] e; cbn [flat_map] in e.
  - reflexivity.
  - exfalso. destruct (esc q c') eqn:ec; [exact (esc_nonempty _ _ ec)|discriminate].
  - exfalso. destruct (esc q c) eqn:ec; [exact (esc_nonempty _ _ ec)|discriminate].
  - pose proof (unesc1_esc q c (flat_map (esc q) s) hq) as h1. rewrite e, (unesc1_esc q c' _ hq) in h1. injection h1 as <- e'.
    f_equal. apply IH. symmetry. exact e'.
Qed.
Lemma repr_inj s s' : repr s = repr s' -> s = s'.
Proof.
  unfold repr. intros e. injection e as eq e. rewrite <- eq in e. apply app_inv_tail in e. exact (escapes_inj _ (quote_cases s) _ _ e).
Qed.
Lemma flat_map_length_le {A B} (f : A -> list B) k s : (forall c, length (f c) <= k) -> length (flat_map f s) <= k * length s.
Proof. intros h. induction s as [|c s IH]; cbn; [lia|]. rewrite app_length. specialize (h c). lia. Qed.
Lemma flat_map_length_ge {A B} (f : A -> list B) s : (forall c, f c <> []) -> length s <= length (flat_map f s).
Proof. intros h. induction s as [|c s IH]; cbn; [lia|]. rewrite app_length. specialize (h c). destruct (f c); [congruence|]. cbn. lia. Qed.
Lemma repr_length s : 2 + length s <= length (repr s) <= 2 + 4 * length s.
Proof.
  unfold repr. cbn [length]. rewrite app_length. cbn [length].
  pose proof (flat_map_length_le (esc (quote s)) 4 s (esc_length _)). pose proof (flat_map_length_ge (esc (quote s)) s (esc_nonempty _)). lia.
Qed.

Lemma body_esc q c b s : q = sq \/ q = dq -> Body q b s -> Body q (esc q c ++ b) (c :: s).
Proof.
  intros hq h. destruct hq as [-> | ->]; destruct c as [b0 b1 b2 b3 b4 b5 b6 b7]; destruct b0, b1, b2, b3, b4, b5, b6, b7;
    match goal with |- Body ?q (esc ?q ?c ++ _) _ => let y := eval vm_compute in (esc q c) in change (esc q c) with y end; cbn [app];
    first [apply body_tab; exact h|apply body_newline; exact h|apply body_return; exact h|apply body_escaped; [tauto|exact h]
      |apply body_plain; [discriminate|discriminate|unfold CanPrint; cbn; lia|exact h]|idtac].
  all: match goal with |- Body _ (_ :: _ :: ?h :: ?l :: _) (?c :: _) =>
    let x := eval vm_compute in (N_of_ascii c / 16)%N in let y := eval vm_compute in (N_of_ascii c mod 16)%N in
    apply (body_hex _ c h l x y); [unfold CanPrint; cbn; lia|reflexivity|reflexivity|reflexivity|assumption] end.
Qed.
Lemma body_all q s : q = sq \/ q = dq -> Body q (flat_map (esc q) s) s.
Proof. intros hq. induction s as [|c s IH]; [constructor|]. cbn [flat_map]. apply body_esc; assumption. Qed.

(** ** numbers *)
Lemma digits_inj n m : NilEmpty.string_of_uint (Nat.to_uint n) = NilEmpty.string_of_uint (Nat.to_uint m) -> n = m.
Proof.
  intros e. apply (f_equal NilEmpty.uint_of_string) in e. rewrite !NilEmpty.usu in e. injection e as e. exact (DecimalNat.Unsigned.to_uint_inj _ _ e).
Qed.
Lemma chars_inj s s' : chars s = chars s' -> s = s'.
Proof. unfold chars. intros e. rewrite <- (string_of_list_ascii_of_string s), <- (string_of_list_ascii_of_string s'). congruence. Qed.
Lemma mark_inj n m : mark n = mark m -> n = m.
Proof.
  unfold mark. intros e. apply app_inv_head in e. apply app_inv_tail in e. apply chars_inj in e. exact (digits_inj _ _ e).
Qed.

Fixpoint udigits (d : uint) : nat :=
  match d with Nil => 0 | D0 d | D1 d | D2 d | D3 d | D4 d | D5 d | D6 d | D7 d | D8 d | D9 d => S (udigits d) end.
Lemma chars_digits d : length (chars (NilEmpty.string_of_uint d)) = udigits d.
Proof. unfold chars. induction d; cbn; congruence. Qed.
Lemma of_acc_ge d : forall a, a * 10 ^ udigits d <= Nat.of_uint_acc d a.
Proof.
  assert (p : forall x, Nat.tail_mul 10 x = 10 * x) by (intros x; rewrite Nat.tail_mul_spec; reflexivity).
  induction d; intros a; cbn [udigits Nat.of_uint_acc]; [cbn; lia|..]; rewrite p; cbn [Nat.pow];
    match goal with |- _ <= Nat.of_uint_acc _ ?x => specialize (IHd x); assert (10 * a <= x) by lia; nia end.
Qed.
Lemma digits_le n k : n < 10 ^ k -> 0 < k -> udigits (Nat.to_uint n) <= k.
Proof.
  intros h hk. pose proof (DecimalNat.Unsigned.of_to n) as e. pose proof (DecimalNat.Unsigned.to_of (Nat.to_uint n)) as u. rewrite e in u.
  remember (Nat.to_uint n) as d eqn:ed. clear ed.
  assert (g : d = D0 Nil \/ exists d' a, 1 <= a /\ udigits d = S (udigits d') /\ Nat.of_uint d = Nat.of_uint_acc d' a).
  { unfold unorm in u. destruct d as [|d|d|d|d|d|d|d|d|d|d];
      try (right; exists d; eexists; split; [|split; [reflexivity|unfold Nat.of_uint; cbn [Nat.of_uint_acc]; rewrite Nat.tail_mul_spec, Nat.mul_0_r; reflexivity]]; lia).
    - discriminate.
    - left. cbn [nzhead] in u. destruct (nzhead d) eqn:en; try discriminate; [exact u|exfalso; exact (DecimalFacts.nzhead_nonzero _ _ en)]. }
  destruct g as [-> | (d' & a & ha & -> & eo)]; [cbn; lia|].
  rewrite eo in e. pose proof (of_acc_ge d' a) as g. assert (10 ^ udigits d' < 10 ^ k) by nia.
  apply Nat.pow_lt_mono_r_iff in H; lia.
Qed.

(** ** members in alphabetical order *)
Lemma before_leb a b : Before a b -> text_leb a b = true /\ text_leb b a = false.
Proof.
  induction 1 as [c b|x y a b h|x a b h (IH1 & IH2)]; cbn [text_leb].
  - split; reflexivity.
  - rewrite (proj2 (N.ltb_lt _ _) h). assert (e : N.ltb (N_of_ascii y) (N_of_ascii x) = false) by (apply N.ltb_ge; lia). rewrite e. split; reflexivity.
  - rewrite !N.ltb_irrefl. split; assumption.
Qed.
Lemma insert_middle it s1 s2 :
  (forall x, In x s1 -> Before (fst x) (fst it)) -> (forall x, In x s2 -> Before (fst it) (fst x)) -> insert it (s1 ++ s2) = s1 ++ it :: s2.
Proof.
  induction s1 as [|x s1 IH]; intros h1 h2; cbn [app insert].
  - destruct s2 as [|y s2]; [reflexivity|]. cbn [insert]. rewrite (proj1 (before_leb _ _ (h2 y (or_introl eq_refl)))). reflexivity.
  - rewrite (proj2 (before_leb _ _ (h1 x (or_introl eq_refl)))). f_equal. apply IH; [|exact h2]. intros z i. apply h1. right. exact i.
Qed.
Lemma strongly_app {A} (R : A -> A -> Prop) s1 x s2 : StronglySorted R (s1 ++ x :: s2) ->
  StronglySorted R (s1 ++ s2) /\ (forall y, In y s1 -> R y x) /\ (forall y, In y s2 -> R x y).
Proof.
  induction s1 as [|a s1 IH]; cbn [app]; intros h; inversion h as [|? ? h1 h2]; subst.
  - rewrite Forall_forall in h2. split; [exact h1|]. split; [intros y []|exact h2].
  - destruct (IH h1) as (k1 & k2 & k3). rewrite Forall_forall in h2. split; [|split; [|exact k3]].
    + constructor; [exact k1|]. apply Forall_forall. intros y i. apply h2. apply in_app_iff in i. apply in_app_iff. cbn. tauto.
    + intros y [<- | i]; [apply h2; apply in_app_iff; cbn; tauto|exact (k2 y i)].
Qed.
Lemma sort_sorted items : forall sorted, Permutation items sorted -> StronglySorted (fun x y => Before (fst x) (fst y)) sorted -> sort_items items = sorted.
Proof.
  induction items as [|a items IH]; intros sorted p s.
  - apply Permutation_nil in p. subst. reflexivity.
  - assert (i : In a sorted) by (apply (Permutation_in _ p); left; reflexivity). apply in_split in i. destruct i as (s1 & s2 & ->).
    apply Permutation_cons_app_inv in p. destruct (strongly_app _ _ _ _ s) as (k1 & k2 & k3).
    unfold sort_items in *. cbn [fold_right]. rewrite (IH (s1 ++ s2) p k1). apply insert_middle; assumption.
Qed.

(** ** what is shown *)
Lemma listed_join ts b : Listed ts b -> ljoin (chars ", ") ts = b.
Proof.
  induction 1 as [|t|t ts r ne h IH]; [reflexivity|reflexivity|]. destruct ts; [congruence|]. cbn [ljoin] in *. rewrite IH. reflexivity.
Qed.
Lemma safe_seq r k l : safe_repr (S r) (LSeq k l) = wrap k (length l) (ljoin (chars ", ") (map (safe_repr r) l)).
Proof. destruct l; reflexivity. Qed.
Lemma safe_map r l : safe_repr (S r) (LMap l) = chars "{" ++ ljoin (chars ", ") (map (fun it => repr (fst it) ++ chars ": " ++ safe_repr r (snd it)) (sort_items l)) ++ chars "}".
Proof. destruct l; reflexivity. Qed.
Lemma safe_seq_nil r k : safe_repr r (LSeq k []) = wrap k 0 [].
Proof. destruct r; reflexivity. Qed.
Lemma safe_map_nil r : safe_repr r (LMap []) = chars "{}".
Proof. destruct r; reflexivity. Qed.
Lemma shown_seq_nil k t : Shown (LSeq k []) t -> t = wrap k 0 [].
Proof.
  intros h. inversion h as [| | |l ts b f L| |l ts b ne f L|]; subst; inversion f; subst; inversion L; subst; try congruence; reflexivity.
Qed.
Lemma shown_map_nil t : Shown (LMap []) t -> t = chars "{}".
Proof.
  intros h. inversion h as [| | | | | |items sorted ts b p s f L]; subst. apply Permutation_nil in p. subst. inversion f; subst. inversion L; subst; try congruence; reflexivity.
Qed.
Lemma shown_exact n : forall v t, Nested n v -> Shown v t -> safe_repr n v = t.
Proof.
  induction n as [|n IH]; intros v t hn hs; inversion hn as [? s|? s|? s|? k|?|? k l hl|? items hl]; subst;
    try (rewrite safe_seq_nil; symmetry; apply shown_seq_nil; exact hs);
    try (rewrite safe_map_nil; symmetry; apply shown_map_nil; exact hs);
    try (inversion hs; subst; reflexivity).
  - rewrite safe_seq.
    assert (F : forall l ts, (forall v, In v l -> Nested n v) -> Forall2 Shown l ts -> map (safe_repr n) l = ts).
    { clear -IH. intros l ts h f. induction f as [|v t l ts hv f IHf]; [reflexivity|]. cbn [map]. f_equal; [apply IH; [apply h; left; reflexivity|exact hv]|].
      apply IHf. intros w i. apply h. right. exact i. }
    inversion hs as [| | |l' ts b f L|v' t' h|l' ts b ne f L|]; subst.
    + rewrite (F _ _ hl f), (listed_join _ _ L). reflexivity.
    + cbn. rewrite (IH v' t' (hl v' (or_introl eq_refl)) h). reflexivity.
    + rewrite (F _ _ hl f), (listed_join _ _ L). unfold wrap. rewrite (proj2 (Nat.eqb_neq _ _) ne). reflexivity.
  - rewrite safe_map. inversion hs as [| | | | | |items' sorted ts b p s f L]; subst. rewrite (sort_sorted _ _ p s). f_equal. f_equal.
    rewrite <- (listed_join _ _ L). f_equal. clear -IH hl p f.
    assert (h : forall k v, In (k, v) sorted -> Nested n v) by (intros k v i; apply (hl k v); exact (Permutation_in _ (Permutation_sym p) i)). clear p hl.
    induction f as [|(k, v) t sorted ts (tv & hv & ->) f IHf]; [reflexivity|]. cbn [map fst snd] in *. f_equal.
    + rewrite (IH v tv); [reflexivity| |exact hv]. apply (h k). left. reflexivity.
    + apply IHf. intros k' v' i. apply (h k'). right. exact i.
Qed.

(** ** cutting *)
Lemma rreplace_end a c new : rreplace (a ++ [c]) [c] new 1 = Ok (a ++ new).
Proof.
  change (a ++ [c]) with (a ++ [c] ++ []). rewrite rreplace_last; [rewrite app_nil_r; reflexivity|discriminate|].
  intros a2 (b & e). apply (f_equal (@length _)) in e. rewrite !app_length in e. cbn in e. lia.
Qed.
Lemma ok_inj {A} (x y : A) : Ok x = Ok y -> x = y.
Proof. intros e. injection e. exact (fun h => h). Qed.
Lemma cut_of c t : Cut [c] t (if Nat.leb 1200 (length t) then firstn 1200 t ++ chars "..." ++ [c] else t).
Proof.
  destruct (Nat.leb_spec 1200 (length t)) as [g|g]; [|constructor; exact g].
  apply cut_at with (b := skipn 1200 t); [symmetry; apply firstn_skipn|apply firstn_length_le; exact g].
Qed.
Lemma shortened_exact len a c : exists m, More 10 len m /\ forall r, shortened len (a ++ [c]) [c] = Ok r -> Cut [c] (a ++ m ++ [c]) r.
Proof.
  unfold shortened. change max_el with 10. destruct (Nat.leb_spec 10 len) as [h|h].
  - exists (mark (len - 10)). split; [unfold mark; constructor; lia|]. intros r. rewrite rreplace_end. cbn [rbind].
    change ((1 + depth - 0) * max_coll_len) with 1200. intros e. apply ok_inj in e. rewrite <- e. apply cut_of.
  - exists []. split; [constructor; exact h|]. intros r. cbn [rbind app]. change ((1 + depth - 0) * max_coll_len) with 1200.
    intros e. apply ok_inj in e. rewrite <- e. apply cut_of.
Qed.
Lemma shortened_ok len a c : exists r, shortened len (a ++ [c]) [c] = Ok r.
Proof. unfold shortened. destruct (Nat.leb max_el len); [rewrite rreplace_end|]; cbn [rbind]; eexists; reflexivity. Qed.
Lemma cut_length c t r : Cut [c] t r -> length r <= 1204.
Proof. intros [h|a b e h]; [lia|]. rewrite app_length, h. cbn. lia. Qed.
Lemma safe_ends_seq r l : exists a, safe_repr (S r) (LSeq KList l) = a ++ ["]"%char].
Proof. rewrite safe_seq. unfold wrap. eexists. rewrite app_assoc. reflexivity. Qed.
Lemma safe_ends_map r l : exists a, safe_repr (S r) (LMap l) = a ++ ["}"%char].
Proof. rewrite safe_map. eexists. rewrite app_assoc. reflexivity. Qed.
Lemma narrow (rep : str) : length rep <= 5000 -> N.ltb width (N.of_nat (length rep)) = false.
Proof. intros h. apply N.ltb_ge. unfold width. lia. Qed.

(** the text of a text, before wrapping *)
Definition text_shown (s : str) : str := repr (if Nat.leb 40 (length s) then firstn 40 s ++ mark (length s - 40) else s).
Lemma log_text s w : log_format (LText s) = Ok w -> w = Line (text_shown s) \/ w = Wrapped.
Proof.
  unfold log_format, text_shown. change max_strl with 40. destruct (Nat.leb 40 (length s)); cbn [rbind safe_repr]; intros e; injection e as <-; destruct (N.ltb _ _); tauto.
Qed.
Lemma log_text_ok s : exists w, log_format (LText s) = Ok w.
Proof. unfold log_format. cbn [rbind]. eexists. reflexivity. Qed.
Lemma mark_length n k : n < 10 ^ k -> 0 < k -> length (mark n) <= k + 4.
Proof. intros h hk. unfold mark. rewrite !app_length, chars_digits. pose proof (digits_le n k h hk). cbn. lia. Qed.
Lemma text_shown_length s k : length s < 10 ^ k -> 0 < k -> length (text_shown s) <= 178 + 4 * k.
Proof.
  intros h hk. unfold text_shown. destruct (Nat.leb_spec 40 (length s)) as [g|g].
  - pose proof (proj2 (repr_length (firstn 40 s ++ mark (length s - 40)))) as l. rewrite app_length, firstn_length_le in l by exact g.
    assert (length (mark (length s - 40)) <= k + 4) by (apply mark_length; [lia|exact hk]). lia.
  - pose proof (proj2 (repr_length s)). lia.
Qed.

(** a text is never what is shown of itself *)
Lemma firstn_flat_map {A B} (f : A -> list B) (x : B) z : (forall c, f c <> []) -> forall l k,
  In x (firstn k (flat_map f l ++ z)) -> In x (flat_map f (firstn k l)) \/ In x z.
Proof.
  intros ne. induction l as [|a l IH]; intros k i.
  - right. cbn in i. rewrite <- (firstn_skipn k z). apply in_app_iff. left. exact i.
  - destruct k as [|k]; [destruct i|]. cbn [flat_map] in i. rewrite <- app_assoc, firstn_app in i. cbn [firstn flat_map]. apply in_app_iff in i. destruct i as [i|i].
    + left. apply in_app_iff. left. rewrite <- (firstn_skipn (S k) (f a)). apply in_app_iff. left. exact i.
    + assert (g : In x (firstn k (flat_map f l ++ z))).
      { specialize (ne a). destruct (f a) as [|b fa]; [congruence|]. cbn [length] in i.
        rewrite <- (firstn_skipn (S k - S (length fa)) (firstn k (flat_map f l ++ z))). apply in_app_iff. left.
        rewrite firstn_firstn. replace (Nat.min (S k - S (length fa)) k) with (S k - S (length fa)) by lia. exact i. }
      destruct (IH k g) as [h|h]; [left; apply in_app_iff; right; exact h|right; exact h].
Qed.
Lemma esc_dq c : In dq (esc sq c) -> c = dq.
Proof. destruct c as [b0 b1 b2 b3 b4 b5 b6 b7]. destruct b0, b1, b2, b3, b4, b5, b6, b7; cbn; intuition discriminate. Qed.
Lemma mark_dq n : ~ In dq (mark n).
Proof.
  unfold mark. rewrite !in_app_iff. intros [[h|[]]|[h|h]]; [discriminate| |destruct h as [h|[h|[h|[]]]]; discriminate].
  induction (Nat.to_uint n); cbn in h; [exact h|..]; (destruct h as [h|h]; [discriminate|auto]).
Qed.
Lemma text_shown_moves s : text_shown s <> s.
Proof.
  unfold text_shown. destruct (Nat.leb_spec 40 (length s)) as [g|g].
  2:{ intros e. pose proof (proj1 (repr_length s)) as l. rewrite e in l. lia. }
  remember (mark (length s - 40)) as m eqn:em. assert (nm : ~ In dq m) by (subst m; apply mark_dq). clear em.
  set (c := firstn 40 s ++ m). intros e. unfold repr in e.
  assert (hd : exists r, s = quote c :: r) by (rewrite <- e; eexists; reflexivity). destruct hd as (r & er).
  assert (qc : In (quote c) c) by (unfold c at 2; rewrite er; left; reflexivity).
  unfold quote in qc, e. destruct (mem sq c && negb (mem dq c)) eqn:eb.
  - apply andb_true_iff in eb. destruct eb as (_ & eb). apply negb_true_iff in eb. apply (proj1 (mem_not_In _ _ _)) in eb. exact (eb qc).
  - rewrite (proj2 (mem_In _ sq c) qc) in eb. cbn [andb] in eb. apply negb_false_iff in eb. apply mem_In in eb.
    assert (no : forall k, k <= 40 -> ~ In dq (firstn k s)).
    { induction k as [|k IH]; intros hk i; [exact i|]. rewrite <- e in i. cbn [firstn] in i. destruct i as [i|i]; [discriminate|].
      apply (firstn_flat_map _ _ _ (esc_nonempty sq)) in i. destruct i as [i|[i|[]]]; [|discriminate].
      apply in_flat_map in i. destruct i as (x & ix & i). apply esc_dq in i. subst x. apply (IH ltac:(lia)).
      unfold c in ix. rewrite firstn_app, firstn_firstn, firstn_length_le in ix by exact g. replace (Nat.min k 40) with k in ix by lia.
      replace (k - 40) with 0 in ix by lia. cbn [firstn] in ix. rewrite app_nil_r in ix. exact ix. }
    unfold c in eb. apply in_app_iff in eb. destruct eb as [eb|eb]; [exact (no 40 (le_n _) eb)|exact (nm eb)].
Qed.
