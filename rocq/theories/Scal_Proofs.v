From Verif Require Export Scal_Spec.
From Coq Require Import Lia.
Local Close Scope Q_scope.

Section Ind.
  Variable P : kword -> Prop.
  Hypothesis Hmin : forall m k, P (KMin m k).
  Hypothesis Hmax : forall m k, P (KMax m k).
  Hypothesis Hexmin : forall m k, P (KExMin m k).
  Hypothesis Hexmax : forall m k, P (KExMax m k).
  Hypothesis Hminlen : forall n, P (KMinLen n).
  Hypothesis Hmaxlen : forall n, P (KMaxLen n).
  Hypothesis Htype : forall t, P (KType t).
  Hypothesis Hall : forall l, (forall s k, In s l -> In k s -> P k) -> P (KAllOf l).
  Hypothesis Hany : forall l, (forall s k, In s l -> In k s -> P k) -> P (KAnyOf l).
  Hypothesis Hnot : forall s, (forall k, In k s -> P k) -> P (KNot s).
  Fixpoint kword_ind' (k : kword) : P k :=
    let each := fix each (s : list kword) : forall k, In k s -> P k :=
      match s with
      | [] => fun k h => match h with end
      | y :: s' => fun k h => match h with or_introl e => match e with eq_refl => kword_ind' y end | or_intror h' => each s' k h' end
      end in
    let all := fix all (l : list (list kword)) : forall s k, In s l -> In k s -> P k :=
      match l with
      | [] => fun s k h _ => match h with end
      | y :: l' => fun s k h hk => match h with or_introl e => each y k (match eq_sym e in _ = w return In k w with eq_refl => hk end)
                                               | or_intror h' => all l' s k h' hk end
      end in
    match k with
    | KMin m d => Hmin m d | KMax m d => Hmax m d | KExMin m d => Hexmin m d | KExMax m d => Hexmax m d
    | KMinLen n => Hminlen n | KMaxLen n => Hmaxlen n | KType t => Htype t
    | KAllOf l => Hall l (all l) | KAnyOf l => Hany l (all l) | KNot s => Hnot s (each s)
    end.
End Ind.

(** * numbers *)
Lemma pow10_pos k : (0 < pow10 k)%Z.
Proof. unfold pow10. apply Z.pow_pos_nonneg; lia. Qed.
Lemma rational_den m k : QDen (rational m k) = pow10 k.
Proof. unfold rational, pow10. cbn. apply Z2Pos.id. exact (pow10_pos k). Qed.
Lemma rational_num m k : Qnum (rational m k) = m.
Proof. reflexivity. Qed.
Lemma is_number_of v q : IsNumber v q -> exists n, number_of v = Some n /\ Qnum q = fst n /\ QDen q = pow10 (snd n).
Proof. intros [b | z | m k | m k]; eexists; (split; [reflexivity|]); split; try reflexivity; apply rational_den. Qed.
Lemma of_number_is v n : number_of v = Some n -> exists q, IsNumber v q /\ Qnum q = fst n /\ QDen q = pow10 (snd n).
Proof.
  destruct v; cbn; intros [= <-]; eexists; (split; [constructor|]); split; try reflexivity; apply rational_den.
Qed.
Lemma is_number_unique v q q' : IsNumber v q -> IsNumber v q' -> q = q'.
Proof. intros [] h; inversion h; reflexivity. Qed.

Lemma num_le_spec a b q r : Qnum q = fst a -> QDen q = pow10 (snd a) -> Qnum r = fst b -> QDen r = pow10 (snd b) ->
  (num_le a b = true <-> (q <= r)%Q).
Proof. intros h1 h2 h3 h4. unfold num_le, Qle. rewrite h1, h2, h3, h4. apply Z.leb_le. Qed.
Lemma num_lt_spec a b q r : Qnum q = fst a -> QDen q = pow10 (snd a) -> Qnum r = fst b -> QDen r = pow10 (snd b) ->
  (num_lt a b = true <-> (q < r)%Q).
Proof. intros h1 h2 h3 h4. unfold num_lt, Qlt. rewrite h1, h2, h3, h4. apply Z.ltb_lt. Qed.

Lemma fail_unless_nil n b : fail_unless n b = [] <-> b = true.
Proof. destruct b; cbn; split; congruence. Qed.

(** * the keywords *)
Definition decides (v : sval) (k : kword) : Prop := (kerrors v k = [] -> KSays k v) /\ (kerrors v k <> [] -> KDenies k v).

Definition each_errors (v : sval) := fix each (s : schema) : list path := match s with [] => [] | k :: s' => kerrors v k ++ each s' end.
Definition all_errors (v : sval) := fix go (i : nat) (l : list schema) : list path :=
  match l with [] => [] | s :: l' => map (cons (inr i)) (each_errors v s) ++ go (S i) l' end.
Definition any_valid (v : sval) := fix go (l : list schema) : bool :=
  match l with [] => false | s :: l' => match each_errors v s with [] => true | _ => go l' end end.
Lemma kerrors_all v l : kerrors v (KAllOf l) = map (cons (inl "allOf"%string)) (all_errors v 0 l).
Proof. reflexivity. Qed.
Lemma kerrors_any v l : kerrors v (KAnyOf l) = fail_unless "anyOf" (any_valid v l).
Proof. reflexivity. Qed.
Lemma kerrors_not v s : kerrors v (KNot s) = fail_unless "not" (match each_errors v s with [] => false | _ => true end).
Proof. reflexivity. Qed.

Lemma each_cons v k s : each_errors v (k :: s) = kerrors v k ++ each_errors v s.
Proof. reflexivity. Qed.
Lemma all_cons v i s l : all_errors v i (s :: l) = map (cons (inr i)) (each_errors v s) ++ all_errors v (S i) l.
Proof. reflexivity. Qed.
Lemma any_cons v s l : any_valid v (s :: l) = match each_errors v s with [] => true | _ => any_valid v l end.
Proof. reflexivity. Qed.
Arguments each_errors : simpl never.
Arguments all_errors : simpl never.
Arguments any_valid : simpl never.
Lemma each_nil v s : each_errors v s = [] <-> forall k, In k s -> kerrors v k = [].
Proof.
  induction s as [|k s IH]; [|rewrite each_cons].
  - split; [intros _ k [] | reflexivity].
  - split.
    + intros h k' [<- | hk]; apply app_eq_nil in h as [h1 h2]; [exact h1 | apply IH; assumption].
    + intros h. rewrite (h k (or_introl eq_refl)). cbn. apply IH. intros k' hk. apply h. right. exact hk.
Qed.
Lemma each_some v s : each_errors v s <> [] -> exists k, In k s /\ kerrors v k <> [].
Proof.
  induction s as [|k s IH]; [intros h; contradiction|]. rewrite each_cons. intros h.
  destruct (kerrors v k) as [|p l] eqn:hk.
  - destruct IH as [k' [h1 h2]]; [exact h|]. exists k'. split; [right; exact h1 | exact h2].
  - exists k. split; [left; reflexivity|]. rewrite hk. discriminate.
Qed.
Lemma all_nil v l : forall i, all_errors v i l = [] <-> forall s, In s l -> each_errors v s = [].
Proof.
  induction l as [|s l IH]; intros i; [|rewrite all_cons].
  - split; [intros _ s []|reflexivity].
  - split.
    + intros h s' [<- | hs]; apply app_eq_nil in h as [h1 h2].
      * apply map_eq_nil in h1. exact h1.
      * apply (proj1 (IH (S i)) h2). exact hs.
    + intros h. rewrite (h s (or_introl eq_refl)). cbn. apply IH. intros k' hk. apply h. right. exact hk.
Qed.
Lemma all_some v l : forall i, all_errors v i l <> [] -> exists s, In s l /\ each_errors v s <> [].
Proof.
  induction l as [|s l IH]; intros i; [intros h; contradiction|]. rewrite all_cons. intros h.
  destruct (each_errors v s) as [|p es] eqn:hs.
  - destruct (IH (S i)) as [s' [h1 h2]]; [exact h|]. exists s'. split; [right; exact h1 | exact h2].
  - exists s. split; [left; reflexivity|]. rewrite hs. discriminate.
Qed.
Lemma any_valid_true v l : any_valid v l = true -> exists s, In s l /\ each_errors v s = [].
Proof.
  induction l as [|s l IH]; [discriminate|]. rewrite any_cons. destruct (each_errors v s) eqn:hs.
  - intros _. exists s. split; [left; reflexivity | exact hs].
  - intros h. destruct (IH h) as [s' [h1 h2]]. exists s'. split; [right; exact h1 | exact h2].
Qed.
Lemma any_valid_false v l : any_valid v l = false -> forall s, In s l -> each_errors v s <> [].
Proof.
  induction l as [|s l IH]; [intros h s' []|]. rewrite any_cons. intros h s' [hin | hin].
  - subst s'. destruct (each_errors v s); [discriminate | congruence].
  - destruct (each_errors v s) eqn:hs; [discriminate|]. auto.
Qed.

Lemma decides_number v k (b : Q -> Prop) (ok : Z * nat -> bool) n :
  kerrors v k = fail_unless n (on_number v ok) ->
  (forall x q, Qnum q = fst x -> QDen q = pow10 (snd x) -> (ok x = true <-> b q)) ->
  ((forall q, IsNumber v q -> b q) -> KSays k v) -> (forall q, IsNumber v q -> ~ b q -> KDenies k v) -> decides v k.
Proof.
  intros hk hb hs hd. split; rewrite hk, fail_unless_nil; unfold on_number.
  - intros h. apply hs. intros q hq. destruct (is_number_of _ _ hq) as [x [h1 [h2 h3]]]. rewrite h1 in h. apply (hb x q h2 h3). exact h.
  - destruct (number_of v) as [x|] eqn:hx; [|congruence]. intros h. destruct (of_number_is _ _ hx) as [q [h1 [h2 h3]]].
    apply (hd q h1). intros hbq. apply h. apply (hb x q h2 h3). exact hbq.
Qed.

Lemma kerrors_decides v k : decides v k.
Proof.
  induction k as [m d|m d|m d|m d|n|n|t|l IH|l IH|s IH] using kword_ind'.
  - eapply (decides_number v _ (fun q => (rational m d <= q)%Q)); [reflexivity | | |].
    + intros x q h1 h2. apply num_le_spec; auto. apply rational_den.
    + intros h. constructor. exact h.
    + intros q hq hn. apply (Denies_min m d v q hq). apply Qnot_le_lt. exact hn.
  - eapply (decides_number v _ (fun q => (q <= rational m d)%Q)); [reflexivity | | |].
    + intros x q h1 h2. apply num_le_spec; auto. apply rational_den.
    + intros h. constructor. exact h.
    + intros q hq hn. apply (Denies_max m d v q hq). apply Qnot_le_lt. exact hn.
  - eapply (decides_number v _ (fun q => (rational m d < q)%Q)); [reflexivity | | |].
    + intros x q h1 h2. apply num_lt_spec; auto. apply rational_den.
    + intros h. constructor. exact h.
    + intros q hq hn. apply (Denies_exmin m d v q hq). apply Qnot_lt_le. exact hn.
  - eapply (decides_number v _ (fun q => (q < rational m d)%Q)); [reflexivity | | |].
    + intros x q h1 h2. apply num_lt_spec; auto. apply rational_den.
    + intros h. constructor. exact h.
    + intros q hq hn. apply (Denies_exmax m d v q hq). apply Qnot_lt_le. exact hn.
  - split; cbn [kerrors]; rewrite fail_unless_nil.
    + intros h. constructor. intros s ->. cbn in h. apply Nat.leb_le in h. exact h.
    + intros h. destruct v; cbn in h; try (exfalso; apply h; reflexivity). constructor.
      destruct (Nat.leb n (length s)) eqn:e; [contradiction|]. apply Nat.leb_gt in e. exact e.
  - split; cbn [kerrors]; rewrite fail_unless_nil.
    + intros h. constructor. intros s ->. cbn in h. apply Nat.leb_le in h. exact h.
    + intros h. destruct v; cbn in h; try (exfalso; apply h; reflexivity). constructor.
      destruct (Nat.leb (length s) n) eqn:e; [contradiction|]. apply Nat.leb_gt in e. exact e.
  - split; cbn [kerrors]; intros h; [constructor | contradiction].
  - split; rewrite kerrors_all.
    + intros h. apply map_eq_nil in h. constructor. intros s k hs hk.
      apply (proj1 (all_nil v l 0)) with (s := s) in h; [|exact hs]. rewrite each_nil in h. apply (IH s k hs hk). auto.
    + intros h. assert (h' : all_errors v 0 l <> []) by (intros e; rewrite e in h; apply h; reflexivity).
      destruct (all_some v l 0 h') as [s [hs he]]. destruct (each_some v s he) as [k [hk hke]].
      apply (Denies_allof l s k v hs hk). apply (IH s k hs hk). exact hke.
  - split; rewrite kerrors_any, fail_unless_nil.
    + intros h. destruct (any_valid_true v l h) as [s [hs he]]. apply (Says_anyof l s v hs). intros k hk.
      rewrite each_nil in he. apply (IH s k hs hk). auto.
    + intros h. constructor. intros s hs. assert (hf : any_valid v l = false) by (destruct (any_valid v l); congruence).
      destruct (each_some v s (any_valid_false v l hf s hs)) as [k [hk he]]. exists k. split; [exact hk|]. apply (IH s k hs hk). exact he.
  - split; rewrite kerrors_not, fail_unless_nil.
    + intros h. destruct (each_errors v s) eqn:he; [discriminate|].
      destruct (each_some v s) as [k [hk hke]]; [rewrite he; discriminate|]. apply (Says_not s k v hk). apply (IH k hk). exact hke.
    + intros h. destruct (each_errors v s) eqn:he; [|exfalso; apply h; reflexivity]. constructor. intros k hk.
      rewrite each_nil in he. apply (IH k hk). auto.
Qed.

Lemma says_not_denies v k : KSays k v -> KDenies k v -> False.
Proof.
  induction k as [m d|m d|m d|m d|n|n|t|l IH|l IH|s IH] using kword_ind'; intros hs hd; inversion hs; inversion hd; subst; clear hs hd; try discriminate;
    repeat match goal with h1 : (forall q, IsNumber ?v q -> _), h2 : IsNumber ?v ?q |- _ => specialize (h1 q h2) end;
    try match goal with h1 : (?a <= ?b)%Q, h2 : (?b < ?a)%Q |- _ => exact (Qlt_not_le _ _ h2 h1) end;
    try match goal with h1 : (forall s, SStr ?t = SStr s -> _) |- _ => specialize (h1 t eq_refl); lia end;
    try match goal with h : forall s, SStr ?t <> SStr s |- _ => exact (h t eq_refl) end;
    try match goal with h : forall q, ~ IsNumber ?v q, h' : IsNumber ?v _ |- _ => exact (h _ h') end;
    try match goal with h : forall z, SInt ?t <> SInt z |- _ => exact (h t eq_refl) end.
  all: try match goal with h : forall m k z, SFloat ?a ?b = SFloat m k -> _, h' : (rational _ _ == inject_Z ?z)%Q |- _ => exact (h a b z eq_refl h') end.
  - match goal with h : forall s k, In s ?l -> In k s -> KSays k ?v, h1 : In ?s ?l, h2 : In ?k ?s, h3 : KDenies ?k ?v |- _ =>
      exact (IH s k h1 h2 (h s k h1 h2) h3) end.
  - match goal with h : forall k, In k ?s -> KSays k ?v, h1 : In ?s ?l, h2 : forall s, In s ?l -> exists k, In k s /\ KDenies k ?v |- _ =>
      destruct (h2 s h1) as [k [h3 h4]]; exact (IH s k h1 h3 (h k h3) h4) end.
  - match goal with h : forall k, In k ?s -> KSays k ?v, h1 : In ?k ?s, h2 : KDenies ?k ?v |- _ => exact (IH k h1 (h k h1) h2) end.
Qed.

Lemma says_iff v k : KSays k v <-> kerrors v k = [].
Proof.
  destruct (kerrors_decides v k) as [h1 h2]. split; [|exact h1]. intros h.
  destruct (kerrors v k) eqn:he; [reflexivity|]. exfalso. apply (says_not_denies v k h). apply h2. discriminate.
Qed.
Lemma denies_iff v k : KDenies k v <-> kerrors v k <> [].
Proof.
  destruct (kerrors_decides v k) as [h1 h2]. split; [|exact h2]. intros h he. exact (says_not_denies v k (h1 he) h).
Qed.

(** * whole schemas *)
Lemma errors_nil s v : errors s v = [] <-> Satisfies s v.
Proof.
  unfold errors, Satisfies. induction s as [|k s IH]; cbn.
  - split; [intros _ k []|reflexivity].
  - split.
    + intros h k' [<- | hk]; apply app_eq_nil in h as [h1 h2]; [apply says_iff; exact h1 | apply IH; assumption].
    + intros h. rewrite (proj1 (says_iff v k) (h k (or_introl eq_refl))). cbn. apply IH. auto.
Qed.
Lemma in_untyped s k : In k (untyped s) <-> In k s /\ forall t, k <> KType t.
Proof.
  unfold untyped. rewrite filter_In. split; intros [h1 h2]; (split; [exact h1|]).
  - intros t ->. discriminate.
  - destruct k; try reflexivity. exfalso. exact (h2 t eq_refl).
Qed.
Lemma untyped_satisfies s v : Satisfies (untyped s) v <-> SatisfiesConstraints s v.
Proof.
  unfold Satisfies, SatisfiesConstraints. split; intros h k.
  - intros h1 h2. apply h. apply in_untyped. auto.
  - rewrite in_untyped. intros [h1 h2]. auto.
Qed.
Lemma joinable_all v l p : In p (kerrors v (KAllOf l)) -> joinable p = false.
Proof.
  rewrite kerrors_all. intros h. apply in_map_iff in h as [q [<- hq]]. cbn.
  assert (hg : forall i, In q (all_errors v i l) -> joinable q = false); [|exact (hg 0 hq)].
  clear. induction l as [|s l IH]; intros i; [intros []|]. rewrite all_cons. intros h. apply in_app_iff in h as [h | h]; [|exact (IH _ h)].
  apply in_map_iff in h as [r [<- _]]. reflexivity.
Qed.
Lemma joinable_other v k p : (forall l, k <> KAllOf l) -> In p (kerrors v k) -> joinable p = true.
Proof.
  intros hk. assert (hf : forall n b, In p (fail_unless n b) -> joinable p = true).
  { intros n [|]; cbn; [intros [] | intros [<- | []]; reflexivity]. }
  destruct k; try (rewrite ?kerrors_any, ?kerrors_not; apply hf); [intros [] | exfalso; exact (hk l eq_refl)].
Qed.

Lemma validate_ok s v r : validate false s v = Ok r -> r = v /\ SatisfiesConstraints s v.
Proof.
  unfold validate. destruct (negb _); [discriminate|]. destruct (errors (untyped s) v) eqn:he; [|discriminate].
  intros [= <-]. split; [reflexivity|]. apply untyped_satisfies, errors_nil. exact he.
Qed.
Lemma validate_sat s v : SatisfiesConstraints s v -> validate false s v = Ok v.
Proof.
  intros h. apply untyped_satisfies, errors_nil in h. unfold validate. rewrite h. reflexivity.
Qed.
Lemma validate_allof s v l : In (KAllOf l) s -> KDenies (KAllOf l) v -> validate false s v = Err TypeError.
Proof.
  intros hin hd. unfold validate. rewrite denies_iff in hd.
  destruct (kerrors v (KAllOf l)) as [|p ps] eqn:he; [contradiction|].
  assert (hp : In p (errors (untyped s) v)).
  { unfold errors. apply in_flat_map. exists (KAllOf l). split; [apply in_untyped; split; [exact hin | discriminate]|].
    rewrite he. left. reflexivity. }
  assert (hj : forallb joinable (errors (untyped s) v) = false).
  { destruct (forallb joinable (errors (untyped s) v)) eqn:hf; [|reflexivity]. rewrite forallb_forall in hf.
    specialize (hf p hp). rewrite (joinable_all v l p) in hf; [discriminate | rewrite he; left; reflexivity]. }
  rewrite hj. reflexivity.
Qed.
Lemma validate_invalid s v k : (forall l, In (KAllOf l) s -> KSays (KAllOf l) v) ->
  In k s -> (forall t, k <> KType t) -> KDenies k v -> validate false s v = Err InvalidValue.
Proof.
  intros hall hin hk hd. unfold validate.
  assert (hj : forallb joinable (errors (untyped s) v) = true).
  { apply forallb_forall. intros p hp. unfold errors in hp. apply in_flat_map in hp as [k' [h1 h2]].
    apply in_untyped in h1 as [h1 _]. apply (joinable_other v k'); [|exact h2]. intros l ->.
    rewrite (proj1 (says_iff v _) (hall l h1)) in h2. destruct h2. }
  rewrite hj. cbn [negb]. destruct (errors (untyped s) v) eqn:he; [|reflexivity].
  exfalso. apply errors_nil in he. apply (says_not_denies v k); [|exact hd]. apply he. apply in_untyped. auto.
Qed.

(** * conversions *)
Lemma quot_part m k : IntegerPart (rational m k) (Z.quot m (pow10 k)).
Proof.
  pose proof (pow10_pos k) as hp. unfold IntegerPart, Qle, Qlt. rewrite rational_den, rational_num. cbn.
  rewrite !Z.mul_1_r, ?Z.mul_0_l.
  pose proof (Z.quot_rem m (pow10 k) ltac:(lia)) as hq.
  assert (hr : (0 <= m -> 0 <= Z.rem m (pow10 k) < pow10 k)%Z) by (intros hm; exact (Z.rem_bound_pos m (pow10 k) hm hp)).
  assert (hr' : (m < 0 -> - pow10 k < Z.rem m (pow10 k) <= 0)%Z) by (intros hm; pose proof (Z.rem_bound_pos (- m) (pow10 k) ltac:(lia) hp) as h; rewrite Z.rem_opp_l in h by lia; lia).
  generalize dependent (Z.quot m (pow10 k)). generalize dependent (Z.rem m (pow10 k)). generalize dependent (pow10 k).
  intros p hp r hr hr' z hz. destruct (Z.leb_spec 0 m) as [hm | hm]; [left | right]; split; auto; nia.
Qed.
Lemma part_unique q z z' : IntegerPart q z -> IntegerPart q z' -> z = z'.
Proof.
  unfold IntegerPart, Qle, Qlt. cbn. rewrite !Z.mul_1_r, ?Z.mul_0_l. intros h h'.
  destruct h as [[h1 [h2 h3]] | [h1 [h2 h3]]], h' as [[g1 [g2 g3]] | [g1 [g2 g3]]]; try lia; nia.
Qed.

Section Conv.
  Variable int_of : list ascii -> option Z.
  Variable dec_of : list ascii -> option (Z * nat).
  Variable show : sval -> list ascii.
  Notation conv := (type_convert int_of dec_of show).
  Notation Lit := (Literal int_of dec_of show).

  Lemma conv_literal t v r : v <> SNone -> (conv t v = Ok r <-> Lit t v r).
  Proof.
    intros hv. split.
    - destruct t, v; cbn; intros h; try contradiction; try discriminate h;
        try (injection h as <-; first [apply Lit_same; constructor | constructor; discriminate | constructor]; fail).
      + injection h as <-. eapply Lit_trunc; [constructor | discriminate | discriminate | apply quot_part].
      + injection h as <-. eapply Lit_trunc; [constructor | discriminate | discriminate | apply quot_part].
      + destruct (int_of s) as [z|] eqn:hz; [|discriminate]. injection h as <-. apply Lit_int. exact hz.
      + destruct (dec_of s) as [[m k]|] eqn:hz; [|discriminate]. injection h as <-. apply Lit_dec. exact hz.
    - intros h. destruct h as [t v hi | v q z hq hne hnb hz | s z hz | z | m k | b | s m k hz | v hn hs].
      + destruct hi; reflexivity.
      + destruct hq as [b | y | m k | m k]; [exfalso; exact (hnb b eq_refl) | exfalso; exact (hne y eq_refl)| |]; cbn; do 2 f_equal;
          apply (part_unique (rational m k)); [apply quot_part | exact hz | apply quot_part | exact hz].
      + cbn. rewrite hz. reflexivity.
      + reflexivity.
      + reflexivity.
      + reflexivity.
      + cbn. rewrite hz. reflexivity.
      + destruct v; try reflexivity; [contradiction | exfalso; exact (hs s eq_refl)].
  Qed.
  Lemma conv_fails t v e : conv t v = Err e -> e = ConversionError.
  Proof.
    destruct t, v; cbn; try discriminate; try (intros [= <-]; reflexivity).
    - destruct (int_of s); [discriminate | intros [= <-]; reflexivity].
    - destruct (dec_of s) as [[m k]|]; [discriminate | intros [= <-]; reflexivity].
  Qed.
  Lemma literal_inhabits t v r : Lit t v r -> Inhabits t r.
  Proof. intros []; try constructor. exact H. Qed.
  Lemma conv_inhabits t v r : conv t v = Ok r -> r = SNone \/ Inhabits t r.
  Proof.
    intros h. assert (hd : v = SNone \/ v <> SNone) by (destruct v; auto; right; discriminate). destruct hd as [-> | hv].
    - left. destruct t; cbn in h; injection h as <-; reflexivity.
    - right. apply (literal_inhabits t v). apply conv_literal; assumption.
  Qed.
  Lemma conv_inhabited t v : Inhabits t v -> conv t v = Ok v.
  Proof. intros []; reflexivity. Qed.

  Lemma has_pair_spec s : is_pattern (SStr s) = true <-> exists a c b, s = a ++ "{"%char :: c :: b /\ (c = "{"%char \/ c = "%"%char).
  Proof.
    cbn [is_pattern]. induction s as [|x s IH].
    - cbn. split; [discriminate|]. intros [a [c [b [h _]]]]. destruct a; discriminate.
    - destruct s as [|y s].
      + cbn. split; [discriminate|]. intros [a [c [b [h _]]]]. destruct a as [|? [|? a]]; discriminate.
      + change (has_pair "{" ["{"%char; "%"%char] (x :: y :: s)) with
          ((beq x "{"%char && mem y ["{"%char; "%"%char]) || has_pair "{" ["{"%char; "%"%char] (y :: s)).
        rewrite Bool.orb_true_iff, Bool.andb_true_iff, beq_true, mem_In, IH. split.
        * intros [[-> hy] | [a [c [b [h hc]]]]].
          -- exists [], y, s. split; [reflexivity|]. destruct hy as [<- | [<- | []]]; auto.
          -- exists (x :: a), c, b. split; [cbn; rewrite h; reflexivity | exact hc].
        * intros [a [c [b [h hc]]]]. destruct a as [|x' a].
          -- injection h as -> -> ->. left. split; [reflexivity|]. cbn. destruct hc as [-> | ->]; auto.
          -- injection h as -> h. right. exists a, c, b. auto.
  Qed.
  Lemma is_expr_spec v : is_expr v = true <-> Expression v.
  Proof.
    split.
    - destruct v as [| | | | |s|]; cbn; try discriminate. destruct s as [|c s]; [discriminate|]. intros h.
      exists s. destruct c as [[] [] [] [] [] [] [] []]; try discriminate h. reflexivity.
    - intros [s ->]. reflexivity.
  Qed.
  Lemma is_template v : is_expr v = false -> is_pattern v = true <-> Template v.
  Proof.
    intros he. unfold Template. rewrite <- is_expr_spec, he. split.
    - intros h. split; [discriminate|]. destruct v as [| | | | |s|]; try discriminate h. apply has_pair_spec in h as [a [c [b [-> hc]]]].
      exists a, c, b. auto.
    - intros [_ [a [c [b [-> hc]]]]]. apply has_pair_spec. exists a, c, b. auto.
  Qed.
End Conv.
