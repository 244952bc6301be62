(** Lemmas on Python's comparisons. *)
From Verif Require Import Cmp_Model Cmp_Spec.

Lemma num_spec v z : num_of v = Some z <-> Num v z.
Proof.
  split.
  - destruct v as [|[]| | | | | |]; cbn; intros h; inversion h; constructor.
  - intros []; reflexivity.
Qed.
Lemma Num_fun v x y : Num v x -> Num v y -> x = y.
Proof. intros h h'. apply num_spec in h, h'. congruence. Qed.
Lemma all2_spec f l m : (forall x, In x l -> forall y, f x y = true <-> PyEq x y) -> (all2 f l m = true <-> Forall2 PyEq l m).
Proof.
  revert m. induction l as [|x l IH]; intros [|y m] h; cbn; split; intros h'; try discriminate; try constructor; try (inversion h'; fail).
  - apply andb_true_iff in h'. apply h; [left; reflexivity | apply h'].
  - apply andb_true_iff in h'. apply IH; [intros x' i; apply h; right; exact i | apply h'].
  - inversion h' as [|? ? ? ? h1 h2]; subst. apply andb_true_iff. split; [apply h; [left; reflexivity | exact h1]|].
    apply IH; [intros x' i; apply h; right; exact i | exact h2].
Qed.
Lemma sub_dict_spec f e d : (forall k x, In (k, x) d -> forall y, f x y = true <-> PyEq x y) ->
  (sub_dict f e d = true <-> forall k x, In (k, x) d -> exists y, dget k e = Some y /\ PyEq x y).
Proof.
  induction d as [|[k x] d IH]; intros h; cbn; [split; [intros _ k x [] | reflexivity]|].
  split.
  - intros h' k' x' [e0 | i].
    + injection e0 as <- <-. destruct (dget k e) as [y|]; [|discriminate]. exists y. split; [reflexivity|]. apply andb_true_iff in h'. apply (h k x); [left; reflexivity | apply h'].
    + destruct (dget k e) as [y|]; [|discriminate]. apply andb_true_iff in h'.
      exact (proj1 (IH (fun k0 x0 i0 => h k0 x0 (or_intror i0))) (proj2 h') k' x' i).
  - intros h'. destruct (h' k x (or_introl eq_refl)) as (y & -> & hy). apply andb_true_iff. split; [apply (h k x); [left; reflexivity | exact hy]|].
    apply IH; [intros k0 x0 i0; apply (h k0 x0); right; exact i0 | intros k0 x0 i0; apply h'; right; exact i0].
Qed.
Lemma num_eq x y u : num_of x = Some y -> (match num_of u with Some z => Z.eqb y z | None => false end = true <-> PyEq x u).
Proof.
  intros hx. split.
  - destruct (num_of u) as [z|] eqn:hu; [|discriminate]. intros e. apply Z.eqb_eq in e. subst z. apply (eq_num _ _ y); apply num_spec; assumption.
  - intros h. inversion h as [|? ? z h1 h2| | | | |]; subst; try discriminate. apply num_spec in h1, h2. rewrite h2. apply Z.eqb_eq. congruence.
Qed.
Lemma val_eq_spec a b : val_eq a b = true <-> PyEq a b.
Proof.
  revert b. induction a as [|b|z|s|l IH|l IH|d IH|n] using pyval_ind'; intros c.
  - destruct c; cbn; split; intros h; try discriminate; try constructor; try reflexivity; inversion h; subst; match goal with h : Num VNone _ |- _ => inversion h end.
  - generalize (num_eq (VBool b) _ c eq_refl). destruct c; exact (fun h => h).
  - generalize (num_eq (VInt z) _ c eq_refl). destruct c; exact (fun h => h).
  - destruct c; cbn; split; intros h; try discriminate; try (inversion h; subst; match goal with h : Num (VStr _) _ |- _ => inversion h end; fail).
    + apply beq_true in h. subst. constructor.
    + inversion h; subst; [match goal with h : Num (VStr _) _ |- _ => inversion h end | apply beq_refl].
  - destruct c; cbn; split; intros h; try discriminate; try (inversion h; subst; match goal with h : Num (VList _) _ |- _ => inversion h end; fail).
    + constructor. apply (all2_spec val_eq l l0 IH). exact h.
    + apply (all2_spec val_eq l l0 IH). inversion h; subst; [match goal with h : Num (VList _) _ |- _ => inversion h end | assumption].
  - destruct c; cbn; split; intros h; try discriminate; try (inversion h; subst; match goal with h : Num (VTup _) _ |- _ => inversion h end; fail).
    + constructor. apply (all2_spec val_eq l l0 IH). exact h.
    + apply (all2_spec val_eq l l0 IH). inversion h; subst; [match goal with h : Num (VTup _) _ |- _ => inversion h end | assumption].
  - destruct c; cbn; split; intros h; try discriminate; try (inversion h; subst; match goal with h : Num (VDict _) _ |- _ => inversion h end; fail).
    + apply andb_true_iff in h. constructor; [apply Nat.eqb_eq, h|]. apply (sub_dict_spec val_eq l d IH), h.
    + inversion h; subst; [match goal with h : Num (VDict _) _ |- _ => inversion h end|]. apply andb_true_iff.
      split; [apply Nat.eqb_eq; assumption|]. apply (sub_dict_spec val_eq l d IH). assumption.
  - destruct c; cbn; split; intros h; try discriminate; try (inversion h; subst; match goal with h : Num (VObj _) _ |- _ => inversion h end; fail).
    + apply Nat.eqb_eq in h. subst. constructor.
    + inversion h; subst; [match goal with h : Num (VObj _) _ |- _ => inversion h end | apply Nat.eqb_refl].
Qed.
Lemma val_eq_false a b : val_eq a b = false <-> ~ PyEq a b.
Proof. rewrite <- val_eq_spec. destruct (val_eq a b); split; congruence. Qed.

Lemma text_compare : forall s t, match String.compare s t with
  | Lt => TextLt (list_ascii_of_string s) (list_ascii_of_string t) | Eq => s = t | Gt => TextLt (list_ascii_of_string t) (list_ascii_of_string s) end.
Proof.
  induction s as [|c s IH]; intros [|d t]; cbn [String.compare list_ascii_of_string]; [reflexivity|apply TL_short|apply TL_short|].
  assert (hc : Ascii.compare c d = N.compare (N_of_ascii c) (N_of_ascii d)) by reflexivity. rewrite hc. destruct (N.compare_spec (N_of_ascii c) (N_of_ascii d)) as [e|l|l].
  - assert (c = d) by (rewrite <- (ascii_N_embedding c), e; apply ascii_N_embedding). subst d. specialize (IH t). destruct (String.compare s t).
    + congruence.
    + apply TL_next, IH.
    + apply TL_next, IH.
  - apply TL_first. unfold nat_of_ascii. lia.
  - apply TL_first. unfold nat_of_ascii. lia.
Qed.
Lemma TextLt_irrefl s : ~ TextLt s s.
Proof. induction s as [|c s IH]; intros h; inversion h; subst; [lia|auto]. Qed.
Lemma TextLt_asym s t : TextLt s t -> ~ TextLt t s.
Proof. induction 1 as [c s|c d s t l|c s t h IH]; intros h'; inversion h'; subst; try lia; auto; apply (TextLt_irrefl s); assumption. Qed.

(** where [cmp2] stops *)
Inductive Stop (cmp : pyval -> pyval -> option comparison) : list pyval -> list pyval -> option comparison -> Prop :=
| stop_eq l m : Forall2 PyEq l m -> Stop cmp l m (Some Eq)
| stop_lt l m y r : Forall2 PyEq l m -> Stop cmp l (m ++ y :: r) (Some Lt)
| stop_gt l x r m : Forall2 PyEq l m -> Stop cmp (l ++ x :: r) m (Some Gt)
| stop_item l x r m y t : Forall2 PyEq l m -> ~ PyEq x y -> Stop cmp (l ++ x :: r) (m ++ y :: t) (cmp x y).
Lemma cmp2_stop cmp l m : Stop cmp l m (cmp2 cmp l m).
Proof.
  revert m. induction l as [|x l IH]; intros [|y m]; cbn.
  - apply stop_eq. constructor.
  - apply (stop_lt _ [] []). constructor.
  - apply (stop_gt _ [] x l []). constructor.
  - destruct (val_eq x y) eqn:e.
    + apply val_eq_spec in e. destruct (IH m).
      * apply stop_eq. constructor; assumption.
      * apply (stop_lt _ (x :: l) (y :: m)). constructor; assumption.
      * apply (stop_gt _ (x :: l) x0 r (y :: m)). constructor; assumption.
      * apply (stop_item _ (x :: l) x0 r (y :: m) y0 t); [constructor; assumption | assumption].
    + apply val_eq_false in e. apply (stop_item _ [] x l [] y m); [constructor | exact e].
Qed.

Lemma stop_fun cmp l m c c' : Stop cmp l m c -> Stop cmp l m c' -> c = c'.
Proof.
  assert (g : forall l l' m r m' y s, l ++ r = l' -> m ++ y :: s = m' -> Forall2 PyEq l m -> Forall2 PyEq l' m' -> exists x r', r = x :: r' /\ PyEq x y).
  { clear. intros l l' m r m' y s e1 e2 h. revert l' m' e1 e2. induction h as [|a b l m hab h IH]; intros l' m' e1 e2 h'; cbn in *; subst.
    - inversion h'; subst. eauto.
    - inversion h'; subst. eapply IH; eauto. }
  assert (u : forall l x r m y t l' x' r' m' y' t', l ++ x :: r = l' ++ x' :: r' -> m ++ y :: t = m' ++ y' :: t' ->
    Forall2 PyEq l m -> ~ PyEq x y -> Forall2 PyEq l' m' -> ~ PyEq x' y' -> x = x' /\ y = y').
  { clear. intros l x r m y t l' x' r' m' y' t' e1 e2 h. revert l' m' e1 e2. induction h as [|a b l m hab h IH]; intros l' m' e1 e2 hn h' hn'.
    - destruct h' as [|a' b' l' m' hab' h']; cbn in *; [injection e1 as -> ->; injection e2 as -> ->; auto|].
      injection e1 as -> _. injection e2 as -> _. destruct (hn hab').
    - destruct h' as [|a' b' l' m' hab' h']; cbn in *; injection e1 as <- e1; injection e2 as <- e2; [destruct (hn' hab)|]. eauto. }
  assert (len : forall l m, Forall2 PyEq l m -> length l = length m) by (induction 1; cbn; congruence).
  intros h h'. destruct h as [l m h|l m y r h|l x r m h|l x r m y t h n].
  - inversion h' as [l' m' h2|l' m' y r h2|l' x r m' h2|l' x r m' y t h2 n2]; subst; [reflexivity| | |].
    + apply len in h, h2. rewrite app_length in h. cbn in h. lia.
    + apply len in h, h2. rewrite app_length in h. cbn in h. lia.
    + destruct (g _ _ _ _ _ _ _ eq_refl eq_refl h2 h) as (x1 & r1 & e & hp). injection e as <- <-. destruct (n2 hp).
  - inversion h' as [l' m' h2 e1 e2|l' m' y' r' h2 e1 e2|l' x r' m' h2 e1 e2|l' x r' m' y' t h2 n2 e1 e2]; subst; [|reflexivity| |].
    + apply len in h, h2. rewrite app_length in h2. cbn in h2. lia.
    + apply len in h, h2. rewrite !app_length in *. cbn in *. lia.
    + exfalso. apply n2. clear - h h2 e2. revert m m' h h2 e2. induction l' as [|a l' IH]; intros m m' h h2 e2.
      * inversion h2; subst. inversion h; subst. cbn in e2. injection e2 as <- _. assumption.
      * inversion h2; subst. inversion h; subst. cbn in e2. injection e2 as _ e2. eapply IH; eassumption.
  - inversion h' as [l' m' h2 e1 e2|l' m' y' r' h2 e1 e2|l' x' r' m' h2 e1 e2|l' x' r' m' y' t h2 n2 e1 e2]; subst; [| |reflexivity|].
    + apply len in h, h2. rewrite app_length in h2. cbn in h2. lia.
    + apply len in h, h2. rewrite !app_length in *. cbn in *. lia.
    + exfalso. apply n2. clear - h h2 e1. revert l l' h h2 e1. induction m' as [|a m' IH]; intros l l' h h2 e1.
      * inversion h2; subst. inversion h; subst. cbn in e1. injection e1 as <- _. assumption.
      * inversion h2; subst. inversion h; subst. cbn in e1. injection e1 as _ e1. eapply IH; eassumption.
  - inversion h' as [l' m' h2 e1 e2|l' m' y' r' h2 e1 e2|l' x' r' m' h2 e1 e2|l' x' r' m' y' t' h2 n2 e1 e2]; subst.
    + destruct (g _ _ _ _ _ _ _ eq_refl eq_refl h h2) as (x1 & r1 & e & hp). injection e as <- <-. destruct (n hp).
    + exfalso. apply n. clear - h h2 e2. revert m m' h h2 e2. induction l as [|a l IH]; intros m m' h h2 e2.
      * inversion h; subst. inversion h2; subst. cbn in e2. injection e2 as <- _. assumption.
      * inversion h; subst. inversion h2; subst. cbn in e2. injection e2 as _ e2. eapply IH; eassumption.
    + exfalso. apply n. clear - h h2 e1. revert l l' h h2 e1. induction m as [|a m IH]; intros l l' h h2 e1.
      * inversion h; subst. inversion h2; subst. cbn in e1. injection e1 as <- _. assumption.
      * inversion h; subst. inversion h2; subst. cbn in e1. injection e1 as _ e1. eapply IH; eassumption.
    + destruct (u _ _ _ _ _ _ _ _ _ _ _ _ e1 e2 h2 n2 h n) as [-> ->]. reflexivity.
Qed.

Lemma num_cmp x y u c : num_of x = Some y -> (match num_of u with Some z => Some (Z.compare y z) | None => None end = Some c -> Compares x u c).
Proof.
  intros hx. destruct (num_of u) as [z|] eqn:hu; [|discriminate]. intros e. injection e as <-. apply num_spec in hx, hu.
  destruct (Z.compare_spec y z); [subst; eapply cmp_num_eq; eassumption | eapply cmp_num_lt; eassumption | eapply cmp_num_gt; [eassumption|eassumption|lia]].
Qed.
Lemma seq_cmp a l b m c : SameKind a l b m -> (forall x, In x l -> forall b c, val_cmp x b = Some c -> Compares x b c) ->
  cmp2 val_cmp l m = Some c -> Compares a b c.
Proof.
  intros hk IH e. assert (h := cmp2_stop val_cmp l m). rewrite e in h. remember (Some c) as oc eqn:ec.
  destruct h as [l m h|l m y r h|l x r m h|l x r m y t h n]; [injection ec as <-|injection ec as <-|injection ec as <-|].
  - exact (cmp_same _ _ _ _ hk h).
  - exact (cmp_short _ _ _ _ _ _ hk h).
  - exact (cmp_long _ _ _ _ _ _ hk h).
  - apply (cmp_item _ _ _ _ _ _ _ _ _ hk h n). apply IH; [apply in_or_app; right; left; reflexivity | exact ec].
Qed.
Lemma val_cmp_seq a l b m : SameKind a l b m -> val_cmp a b = cmp2 val_cmp l m.
Proof. intros []; reflexivity. Qed.
Lemma val_cmp_num a b x y : Num a x -> Num b y -> val_cmp a b = Some (Z.compare x y).
Proof. intros [] []; reflexivity. Qed.
Lemma val_cmp_spec a b c : val_cmp a b = Some c <-> Compares a b c.
Proof.
  split.
  - revert b c. induction a as [|b|z|s|l IH|l IH|d IH|n] using pyval_ind'; intros o c h.
    + destruct o; discriminate.
    + apply (num_cmp (VBool b) _ o c eq_refl). destruct o; exact h.
    + apply (num_cmp (VInt z) _ o c eq_refl). destruct o; exact h.
    + destruct o; try discriminate. cbn in h. injection h as h. generalize (text_compare s s0). rewrite h. destruct c; intros h'; [subst; constructor | constructor; exact h' | constructor; exact h'].
    + destruct o; try discriminate. exact (seq_cmp _ _ _ _ _ (kind_list l l0) IH h).
    + destruct o; try discriminate. exact (seq_cmp _ _ _ _ _ (kind_tup l l0) IH h).
    + destruct o; discriminate.
    + destruct o; discriminate.
  - induction 1 as [a b x y h1 h2 h|a b x h1 h2|a b x y h1 h2 h|s t h|s|s t h|a b l m hk h|a b l m y r hk h|a b l x r m hk h|a b l x r m y t c hk h n hc IH].
    + rewrite (val_cmp_num _ _ _ _ h1 h2). f_equal. apply Z.compare_lt_iff, h.
    + rewrite (val_cmp_num _ _ _ _ h1 h2). f_equal. apply Z.compare_eq_iff. reflexivity.
    + rewrite (val_cmp_num _ _ _ _ h1 h2). f_equal. apply Z.compare_gt_iff. lia.
    + cbn. generalize (text_compare s t). destruct (String.compare s t); intros h'; [subst; destruct (TextLt_irrefl _ h) | reflexivity | destruct (TextLt_asym _ _ h h')].
    + cbn. generalize (text_compare s s). destruct (String.compare s s); intros h'; [reflexivity | destruct (TextLt_irrefl _ h') | destruct (TextLt_irrefl _ h')].
    + cbn. generalize (text_compare s t). destruct (String.compare s t); intros h'; [subst; destruct (TextLt_irrefl _ h) | destruct (TextLt_asym _ _ h h') | reflexivity].
    + rewrite (val_cmp_seq _ _ _ _ hk). exact (stop_fun _ _ _ _ _ (cmp2_stop _ _ _) (stop_eq _ _ _ h)).
    + rewrite (val_cmp_seq _ _ _ _ hk). exact (stop_fun _ _ _ _ _ (cmp2_stop _ _ _) (stop_lt _ _ _ _ _ h)).
    + rewrite (val_cmp_seq _ _ _ _ hk). exact (stop_fun _ _ _ _ _ (cmp2_stop _ _ _) (stop_gt _ _ _ _ _ h)).
    + rewrite (val_cmp_seq _ _ _ _ hk), <- IH. exact (stop_fun _ _ _ _ _ (cmp2_stop _ _ _) (stop_item _ _ _ _ _ _ _ h n)).
Qed.

Lemma vmem_spec x l : vmem x l = true <-> exists y, In y l /\ PyEq y x.
Proof.
  unfold vmem. rewrite existsb_exists. split; intros (y & i & h); exists y; (split; [exact i|]); apply val_eq_spec; exact h.
Qed.
Lemma vmem_false x l : vmem x l = false <-> forall y, In y l -> ~ PyEq y x.
Proof.
  split.
  - intros h y i e. assert (ht : vmem x l = true) by (apply vmem_spec; eauto). congruence.
  - intros h. destruct (vmem x l) eqn:e; [|reflexivity]. apply vmem_spec in e. destruct e as (y & i & e). destruct (h y i e).
Qed.

Lemma vdedup_loop_In seen l x : In x (vdedup_loop seen l) -> In x l /\ vmem x seen = false.
Proof.
  revert seen. induction l as [|y l IH]; intros seen; cbn; [intros []|].
  destruct (vmem y seen) eqn:e.
  - intros h. apply IH in h. tauto.
  - intros [<- | h]; [auto|]. apply IH in h. destruct h as [h h']. split; [right; exact h|].
    apply vmem_false. intros z hz. exact (proj1 (vmem_false _ _) h' z (or_intror hz)).
Qed.
Lemma vdedup_loop_cover seen l x : In x l -> In x (vdedup_loop seen l) \/ vmem x seen = true \/ exists y, In y (vdedup_loop seen l) /\ PyEq y x.
Proof.
  revert seen. induction l as [|z l IH]; intros seen; cbn; [intros []|].
  intros [<- | h].
  - destruct (vmem z seen); [auto | left; left; reflexivity].
  - destruct (vmem z seen) eqn:e.
    + exact (IH seen h).
    + destruct (IH (z :: seen) h) as [h' | [h' | (y & hy & h')]]; [left; right; exact h' | | right; right; exists y; split; [right; exact hy | exact h']].
      cbn in h'. apply orb_true_iff in h'. destruct h' as [h' | h']; [|right; left; exact h'].
      right. right. exists z. split; [left; reflexivity | apply val_eq_spec; exact h'].
Qed.
Lemma vdedup_loop_free seen l : forall a x b y c, vdedup_loop seen l = a ++ x :: b ++ y :: c -> ~ PyEq x y.
Proof.
  revert seen. induction l as [|z l IH]; intros seen a x b y c; cbn.
  - destruct a; discriminate.
  - destruct (vmem z seen) eqn:e; [apply IH|]. destruct a as [|a0 a]; cbn; intros h; injection h as -> h.
    + assert (hy : In y (vdedup_loop (x :: seen) l)) by (rewrite h; apply in_or_app; right; left; reflexivity).
      apply vdedup_loop_In in hy. exact (proj1 (vmem_false _ _) (proj2 hy) x (or_introl eq_refl)).
    + exact (IH _ _ _ _ _ _ h).
Qed.
