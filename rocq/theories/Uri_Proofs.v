From Verif Require Import Uri_Model Uri_Spec Coll_Proofs.
From Coq Require DecimalString DecimalNat.
Local Open Scope char_scope. Local Open Scope list_scope.

(** * decimals *)
Lemma digits_val_uint d : forall acc, digits_val (Z.of_nat acc) (list_ascii_of_string (DecimalString.NilEmpty.string_of_uint d)) = Some (Z.of_nat (Nat.of_uint_acc d acc)).
Proof.
  induction d; intros acc; cbn [DecimalString.NilEmpty.string_of_uint list_ascii_of_string digits_val]; [reflexivity|..];
    match goal with |- (if ?b then _ else _) = _ => change b with true end; cbn iota; cbn [Nat.of_uint_acc]; rewrite <- IHd; f_equal; rewrite ?Nat.tail_mul_spec;
    match goal with |- context [Z.of_nat (nat_of_ascii ?c - 48)] => let v := eval vm_compute in (Z.of_nat (nat_of_ascii c - 48)) in change (Z.of_nat (nat_of_ascii c - 48)) with v end;
    lia.
Qed.
Lemma parse_decimal n : parse_int (decimal n) = Some (Z.of_nat n).
Proof.
  unfold decimal. pose proof (digits_val_uint (Nat.to_uint n) 0) as h. fold (Nat.of_uint (Nat.to_uint n)) in h. rewrite DecimalNat.Unsigned.of_to in h.
  assert (ne : Nat.to_uint n <> Decimal.Nil).
  { intros e. assert (h0 : n = 0) by (rewrite <- (DecimalNat.Unsigned.of_to n), e; reflexivity). subst n. discriminate. }
  destruct (Nat.to_uint n); [congruence|..]; exact h.
Qed.

(** * escaping *)
Lemma replace2_cons_other a b r x s : x <> a -> replace2 a b r (x :: s) = x :: replace2 a b r s.
Proof. intros n. cbn [replace2]. destruct s as [|y s]; [reflexivity|]. rewrite (proj2 (beq_false _ _ _) n). reflexivity. Qed.
Lemma replace2_hit a b r s : replace2 a b r (a :: b :: s) = r :: replace2 a b r s.
Proof. cbn [replace2]. rewrite !beq_refl. reflexivity. Qed.
Definition esc1 (t : list ascii) : list ascii := flat_map (fun c => if beq c "~" then ["~"; "0"] else [c]) t.
Lemma unescape1 t : replace2 "~" "1" "/" (escape t) = esc1 t.
Proof.
  induction t as [|c t IH]; [reflexivity|]. unfold escape, esc1. cbn [flat_map]. fold (escape t) (esc1 t).
  destruct (beq_spec EqDec_ascii c "~") as [->|n].
  - cbn [app]. assert (e : replace2 "~" "1" "/" ("~" :: "0" :: escape t) = "~" :: replace2 "~" "1" "/" ("0" :: escape t)) by reflexivity.
    rewrite e, replace2_cons_other by discriminate. rewrite IH. reflexivity.
  - destruct (beq_spec EqDec_ascii c "/") as [->|n2]; cbn [app].
    + rewrite replace2_hit, IH. reflexivity.
    + rewrite replace2_cons_other by exact n. rewrite IH. reflexivity.
Qed.
Lemma unescape_escape t : unescape (escape t) = t.
Proof.
  unfold unescape. rewrite unescape1. induction t as [|c t IH]; [reflexivity|]. unfold esc1. cbn [flat_map]. fold (esc1 t).
  destruct (beq_spec EqDec_ascii c "~") as [->|n]; cbn [app].
  - rewrite replace2_hit, IH. reflexivity.
  - rewrite replace2_cons_other by exact n. rewrite IH. reflexivity.
Qed.
Lemma escape_no_slash t : ~ In "/" (escape t).
Proof.
  induction t as [|c t IH]; [intros []|]. unfold escape. cbn [flat_map]. fold (escape t). rewrite in_app_iff. intros [i|i]; [|exact (IH i)].
  destruct (beq_spec EqDec_ascii c "~"); [simpl in i; intuition discriminate|].
  destruct (beq_spec EqDec_ascii c "/"); simpl in i; intuition congruence.
Qed.
Lemma escape_nil t : escape t = [] -> t = [].
Proof. destruct t as [|c t]; [reflexivity|]. unfold escape. cbn [flat_map]. destruct (beq c "~"); [discriminate|]. destruct (beq c "/"); discriminate. Qed.

(** * quoting *)
Lemma hex_digit_value c n : HexDigit c n -> hex_value c = Some n.
Proof.
  intros [h|h];
    do 16 (destruct n as [|n]; [cbn in h; injection h as <-; reflexivity|]); cbn in h; destruct n; discriminate.
Qed.
Lemma unquote_quoted s q : Quoted s q -> unquote q = s.
Proof.
  induction 1 as [|c s q n h IH|a b x y s q ha hb h IH]; [reflexivity| |].
  - cbn [unquote]. rewrite (proj2 (beq_false _ _ _) n), IH. reflexivity.
  - cbn [unquote]. rewrite beq_refl, (hex_digit_value a x ha), (hex_digit_value b y hb), IH. reflexivity.
Qed.

(** * splitting a pointer *)
Lemma split_pointer : forall ts t, split_char "/" (escape t ++ pointer ts) = map escape (t :: ts).
Proof.
  induction ts as [|u ts IH]; intros t; unfold pointer; cbn [flat_map map].
  - rewrite app_nil_r. apply split_char_free, escape_no_slash.
  - fold (pointer ts). cbn [app]. rewrite split_char_app by apply escape_no_slash. rewrite IH. reflexivity.
Qed.
Lemma resolve_parts doc t ts q : t <> [] -> Quoted (pointer (t :: ts)) ("/" :: q) -> resolve_fragment doc ("/" :: q) = follow doc (map escape (t :: ts)).
Proof.
  intros ne h. change (pointer (t :: ts)) with ("/" :: (escape t ++ pointer ts)) in h.
  assert (h' : Quoted (escape t ++ pointer ts) q) .
  { remember ("/" :: escape t ++ pointer ts) as s0 eqn:es. remember ("/" :: q) as q0 eqn:eq. destruct h as [|c s q1 n h|a b x y s q1 ha hb h]; [discriminate| |discriminate].
    injection es as -> ->. injection eq as ->. exact h. }
  clear h. rename h' into h.
  unfold resolve_fragment. cbn [lstrip]. change (mem "/" ["/"]) with true. cbn iota.
  assert (hd : exists c q', q = c :: q' /\ c <> "/").
  { destruct (escape t) as [|c e] eqn:ee; [destruct (ne (escape_nil t ee))|]. cbn [app] in h.
    inversion h as [|c' s q0 n h0|a b x y s q0 ha hb h0]; subst.
    - exists c, q0. split; [reflexivity|]. intros ->. apply (escape_no_slash t). rewrite ee. left. reflexivity.
    - eexists _, _. split; [reflexivity|discriminate]. }
  destruct hd as (c & q' & -> & nc). rewrite lstrip_id by (simpl; intuition congruence).
  cbv zeta. cbn iota beta. f_equal. rewrite (unquote_quoted _ _ h). apply split_pointer.
Qed.

Lemma py_index_ok {A} (l : list A) z v : py_index l z = Ok v <->
  exists i, ((0 <= z /\ Z.of_nat i = z)%Z \/ (z < 0 /\ Z.of_nat i = Z.of_nat (length l) + z)%Z) /\ nth_error l i = Some v.
Proof.
  unfold py_index. cbv zeta. split.
  - intros h. destruct (Z.ltb_spec z 0) as [n|p].
    + destruct (Z.ltb_spec (z + Z.of_nat (length l)) 0) as [m|m]; [discriminate|].
      destruct (nth_error l _) eqn:e; [|discriminate]. injection h as <-. eexists. split; [|exact e]. right. lia.
    + destruct (Z.ltb_spec z 0) as [m|m]; [discriminate|].
      destruct (nth_error l _) eqn:e; [|discriminate]. injection h as <-. eexists. split; [|exact e]. left. lia.
  - intros (i & h & e). destruct (Z.ltb_spec z 0) as [n|p].
    + destruct (Z.ltb_spec (z + Z.of_nat (length l)) 0) as [m|m]; [lia|].
      replace (Z.to_nat (z + Z.of_nat (length l))) with i by lia. rewrite e. reflexivity.
    + destruct (Z.ltb_spec z 0) as [m|m]; [lia|]. replace (Z.to_nat z) with i by lia. rewrite e. reflexivity.
Qed.

Lemma follow_reach ts : forall doc v, follow doc (map escape ts) = Ok v <-> Reach py_position doc ts v.
Proof.
  induction ts as [|t ts IH]; intros doc v; cbn [map follow].
  - split; [intros e; injection e as <-; constructor|]. intros h. inversion h; reflexivity.
  - unfold fragment_step. rewrite unescape_escape. cbv zeta. split.
    + intros h.
      assert (L : forall l, (match py_index l (match parse_int t with Some z => z | None => 0%Z end) with Ok v => Ok v | Err _ => Err InvalidValue end) =
                        (match py_index l (match parse_int t with Some z => z | None => 0%Z end) with Ok v => @Ok pyval v | Err _ => Err InvalidValue end)) by reflexivity.
      clear L. destruct doc; cbn [rbind] in h; try discriminate.
      * destruct (parse_int t) as [z|] eqn:ez; [|discriminate]. destruct (py_index l z) as [w|] eqn:e; [|discriminate].
        apply py_index_ok in e. destruct e as (i & hi & e). econstructor; [|exact e|apply IH; exact h]. exists z. auto.
      * destruct (parse_int t) as [z|] eqn:ez; [|discriminate]. destruct (py_index l z) as [w|] eqn:e; [|discriminate].
        apply py_index_ok in e. destruct e as (i & hi & e). econstructor; [|exact e|apply IH; exact h]. exists z. auto.
      * destruct (dget (unchars t) l) as [w|] eqn:e; [|discriminate]. econstructor; [exact e|apply IH; exact h].
    + intros h. inversion h as [|l t' w ts' w' e r|l t' i w ts' w' (z & ez & hi) e r|l t' i w ts' w' (z & ez & hi) e r]; subst.
      * rewrite e. cbn [rbind]. apply IH. exact r.
      * rewrite ez, (proj2 (py_index_ok l z w)) by eauto. cbn [rbind]. apply IH. exact r.
      * rewrite ez, (proj2 (py_index_ok l z w)) by eauto. cbn [rbind]. apply IH. exact r.
Qed.
Lemma follow_error parts : forall doc e, follow doc parts = Err e -> e = InvalidValue.
Proof.
  induction parts as [|p ps IH]; intros doc e h; [discriminate|]. cbn [follow] in h.
  destruct (fragment_step doc p) as [v|e'] eqn:ef; cbn [rbind] in h; [eapply IH; exact h|]. injection h as <-.
  unfold fragment_step in ef. destruct (match doc with VList l | VTup l => _ | VDict l => _ | _ => _ end); congruence.
Qed.
Lemma Reach_mono (ix ix' : list ascii -> nat -> nat -> Prop) doc ts v :
  (forall t l i, ix t l i -> ix' t l i) -> Reach ix doc ts v -> Reach ix' doc ts v.
Proof. intros h. induction 1; [constructor|eapply reach_key; eassumption|eapply reach_item; eauto|eapply reach_titem; eauto]. Qed.
Lemma rfc_py t l i : rfc_index t l i -> py_position t l i.
Proof. intros ->. exists (Z.of_nat i). split; [apply parse_decimal|left; lia]. Qed.

(** * scope *)
Lemma split_hash_head u : ~ In "#" (hd [] (split_char "#" u)).
Proof.
  induction u as [|c u IH]; [intros []|]. cbn [split_char]. destruct (split_char "#" u) as [|w ws] eqn:e; [destruct (split_char_nonempty _ _ e)|].
  cbn [hd] in IH. destruct (beq_spec EqDec_ascii c "#"); cbn [hd]; [intros []|]. intros [h|h]; [congruence|exact (IH h)].
Qed.
Lemma split_hash_all u : forall w, In w (split_char "#" u) -> ~ In "#" w.
Proof.
  induction u as [|c u IH]; intros w; cbn [split_char].
  - intros [<-|[]]. intros [].
  - destruct (split_char "#" u) as [|w0 ws] eqn:e; [destruct (split_char_nonempty _ _ e)|].
    destruct (beq_spec EqDec_ascii c "#") as [->|n].
    + intros [<-|i]; [intros []|apply IH; exact i].
    + intros [<-|i]; [intros [h|h]; [congruence|exact (IH w0 (or_introl eq_refl) h)]|apply IH; right; exact i].
Qed.
Lemma split_two d f : ~ In "#" d -> ~ In "#" f -> split_char "#" (d ++ "#" :: f) = [d; f].
Proof. intros a b. rewrite split_char_app by exact a. rewrite split_char_free by exact b. reflexivity. Qed.
Lemma scope_two d f b : ~ In "#" d -> ~ In "#" f ->
  scope (d ++ "#" :: f) b = (match d with [] => hd [] (split_char "#" b) | _ => d end) ++ "#" :: f.
Proof.
  intros nd nf. unfold scope. rewrite (proj2 (mem_In _ _ _)) by (apply in_or_app; right; left; reflexivity).
  rewrite split_two by assumption. reflexivity.
Qed.
Lemma split_hash_in u : In "#" u -> exists d f r, split_char "#" u = d :: f :: r.
Proof.
  induction u as [|c u IH]; [intros []|]. intros i. cbn [split_char]. destruct (split_char "#" u) as [|w0 ws] eqn:e; [destruct (split_char_nonempty _ _ e)|].
  destruct (beq_spec EqDec_ascii c "#") as [->|n]; [eauto|]. destruct i as [->|i]; [congruence|].
  destruct (IH i) as (d & f & r & e'). injection e' as -> ->. eauto.
Qed.

