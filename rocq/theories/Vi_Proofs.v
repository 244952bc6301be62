From Verif Require Import Vi_Model Vi_Spec Jv_Spec Cmp_Spec Cmp_Proofs Jv_Proofs Jv_Props.
From Coq Require Import Lia Arith.
Local Open Scope list_scope.

(** * the table *)
Lemma build_snoc T c : build_all (T ++ [c]) = build_all T ++ [build_class (build_all T) c].
Proof. unfold build_all. rewrite fold_left_app. reflexivity. Qed.
Lemma build_length T : length (build_all T) = length T.
Proof. induction T as [|c T IH] using rev_ind; [reflexivity|]. rewrite build_snoc, !app_length, IH. reflexivity. Qed.
Lemma build_app T1 T2 : exists r, build_all (T1 ++ T2) = build_all T1 ++ r.
Proof.
  induction T2 as [|c T2 [r IH]] using rev_ind; [exists []; rewrite !app_nil_r; reflexivity|].
  rewrite app_assoc, build_snoc, IH, <- app_assoc. eexists. reflexivity.
Qed.

Definition kept_ext (B : list kls) (c : cdecl) : list nat :=
  filter (fun e => negb (existsb (fun b => is_sub B b e) (cd_bases c))) (cd_ext c).
Definition kept_bases (B : list kls) (c : cdecl) : list nat :=
  filter (fun b => negb (existsb (fun e => is_sub B e b) (kept_ext B c))) (cd_bases c).
Definition kept (B : list kls) (c : cdecl) : list nat := kept_bases B c ++ kept_ext B c.

Lemma the_app {A} (f : kls -> list A) B r j : j < length B -> the f (B ++ r) j = the f B j.
Proof. intros h. unfold the. rewrite nth_error_app1 by exact h. reflexivity. Qed.
Lemma flat_map_ext_in' {A C} (f g : A -> list C) l : (forall a, In a l -> f a = g a) -> flat_map f l = flat_map g l.
Proof. induction l as [|a l IH]; intros h; cbn [flat_map]; [reflexivity|]. rewrite (h a (or_introl eq_refl)), IH; [reflexivity|]. intros x i. apply h. right. exact i. Qed.
Lemma existsb_ext_in {A} (f g : A -> bool) l : (forall a, In a l -> f a = g a) -> existsb f l = existsb g l.
Proof. induction l as [|a l IH]; intros h; cbn [existsb]; [reflexivity|]. rewrite (h a (or_introl eq_refl)), IH; [reflexivity|]. intros x i. apply h. right. exact i. Qed.
Lemma filter_ext_in' {A} (f g : A -> bool) l : (forall a, In a l -> f a = g a) -> filter f l = filter g l.
Proof. apply filter_ext_in. Qed.

Section Table.
  Variable T : list cdecl.
  Hypothesis wf : Declared T.
  Let B := build_all T.

  Lemma kept_sub c j : In j (kept B c) -> In j (cd_bases c ++ cd_ext c).
  Proof.
    intros i. apply in_app_or in i. apply in_or_app. destruct i as [i|i]; apply filter_In in i; [left|right]; exact (proj1 i).
  Qed.

  Lemma class_at i c : nth_error T i = Some c -> exists k, nth_error B i = Some k
    /\ ks_req k = required_of (cd_own c) ++ flat_map (the ks_req B) (kept B c)
    /\ ks_names k = names_of (cd_own c) ++ flat_map (the ks_names B) (kept B c)
    /\ ks_pats k = patterns_of (cd_own c) ++ flat_map (the ks_pats B) (kept B c)
    /\ ks_more k = more_of (cd_own c)
    /\ ks_notval k = cd_notval c ++ flat_map (the ks_notval B) (kept B c)
    /\ ks_schema k = chained (cd_own c) (map (the ks_schema B) (kept_bases B c))
    /\ ks_sups k = i :: flat_map (the ks_sups B) (kept B c).
  Proof.
    intros e. pose proof (nth_error_split _ _ e) as (T1 & T2 & eT & el).
    assert (lt : forall j, In j (cd_bases c ++ cd_ext c) -> j < length (build_all T1)).
    { intros j h. rewrite build_length, el. exact (wf _ _ _ e h). }
    assert (eB : exists r, B = (build_all T1 ++ [build_class (build_all T1) c]) ++ r).
    { unfold B. rewrite <- build_snoc. replace T with ((T1 ++ [c]) ++ T2) by (rewrite eT, <- app_assoc; reflexivity). apply build_app. }
    destruct eB as [r eB]. rewrite <- app_assoc in eB.
    assert (th : forall A (f : kls -> list A) j, In j (cd_bases c ++ cd_ext c) -> the f (build_all T1) j = the f B j).
    { intros A f j h. rewrite eB, the_app; [reflexivity|exact (lt j h)]. }
    assert (sb : forall a b, In a (cd_bases c ++ cd_ext c) -> is_sub (build_all T1) a b = is_sub B a b).
    { intros a b h. unfold is_sub. rewrite (th _ ks_sups a h). reflexivity. }
    assert (ke : kept_ext (build_all T1) c = kept_ext B c).
    { unfold kept_ext. apply filter_ext_in'. intros x hx. f_equal. apply existsb_ext_in. intros b hb. apply sb. apply in_or_app. left. exact hb. }
    assert (kb : kept_bases (build_all T1) c = kept_bases B c).
    { unfold kept_bases. rewrite ke. apply filter_ext_in'. intros b hb. f_equal. apply existsb_ext_in. intros x hx. apply sb.
      apply filter_In in hx. apply in_or_app. right. exact (proj1 hx). }
    exists (build_class (build_all T1) c). split.
    { rewrite eB, nth_error_app2; rewrite build_length, el; [rewrite Nat.sub_diag; reflexivity|lia]. }
    assert (fm : forall A (f : kls -> list A), flat_map (the f (build_all T1)) (kept (build_all T1) c) = flat_map (the f B) (kept B c)).
    { intros A f. unfold kept. rewrite ke, kb. apply flat_map_ext_in'. intros x hx. apply th. apply (kept_sub c). exact hx. }
    unfold build_class. fold (kept_ext (build_all T1) c). fold (kept_bases (build_all T1) c). fold (kept (build_all T1) c). cbn.
    rewrite build_length, el, !fm, kb. repeat split. f_equal.
    apply map_ext_in. intros x hx. apply th. apply (kept_sub c). apply in_or_app. left. exact hx.
  Qed.
  Lemma the_at {A} (f : kls -> list A) i k : nth_error B i = Some k -> the f B i = f k.
  Proof. unfold the. intros ->. reflexivity. Qed.

  (** * ancestors *)
  Lemma anc_trans a b c : Anc T a b -> Anc T b c -> Anc T a c.
  Proof. induction 1 as [|i c' j a e h1 h2 IH]; intros h; [exact h|]. econstructor; [exact e|exact h1|exact (IH h)]. Qed.

  (** the filtered bases have the same ancestors *)
  Lemma cover c : (forall j a, In j (cd_bases c ++ cd_ext c) -> (In a (the ks_sups B j) <-> Anc T j a)) ->
    forall j, In j (cd_bases c ++ cd_ext c) -> exists j', In j' (kept B c) /\ Anc T j' j.
  Proof.
    intros IH.
    assert (hb : forall b, In b (cd_bases c) -> exists j', In j' (kept B c) /\ Anc T j' b).
    { intros b ib. destruct (existsb (fun e => is_sub B e b) (kept_ext B c)) eqn:e.
      - apply existsb_exists in e. destruct e as (e & ie & s). exists e. split; [apply in_or_app; right; exact ie|].
        apply IH; [apply in_or_app; right; apply filter_In in ie; exact (proj1 ie)|]. apply mem_In in s. exact s.
      - exists b. split; [|constructor]. apply in_or_app. left. apply filter_In. split; [exact ib|]. rewrite e. reflexivity. }
    intros j i. apply in_app_or in i. destruct i as [i|i]; [exact (hb j i)|].
    destruct (existsb (fun b => is_sub B b j) (cd_bases c)) eqn:e.
    - apply existsb_exists in e. destruct e as (b & ib & s). destruct (hb b ib) as (j' & h1 & h2). exists j'. split; [exact h1|].
      apply (anc_trans _ b); [exact h2|]. apply IH; [apply in_or_app; left; exact ib|]. apply mem_In in s. exact s.
    - exists j. split; [|constructor]. apply in_or_app. right. apply filter_In. split; [exact i|]. rewrite e. reflexivity.
  Qed.

  Lemma in_the_lt {A} (f : kls -> list A) (x : A) j : In x (the f B j) -> exists c, nth_error T j = Some c.
  Proof.
    unfold the. destruct (nth_error B j) as [k|] eqn:e; [|intros []]. intros _. destruct (nth_error T j) as [c|] eqn:e'; [exists c; reflexivity|].
    exfalso. apply nth_error_None in e'. assert (nth_error B j <> None) by congruence. apply nth_error_Some in H. unfold B in H. rewrite build_length in H. lia.
  Qed.

  Lemma sups_spec : forall i c a, nth_error T i = Some c -> (In a (the ks_sups B i) <-> Anc T i a).
  Proof.
    induction i as [i IHi] using lt_wf_ind. intros c a e.
    destruct (class_at i c e) as (k & ek & _ & _ & _ & _ & _ & _ & es). rewrite (the_at ks_sups _ _ ek), es.
    assert (IH : forall j a, In j (cd_bases c ++ cd_ext c) -> (In a (the ks_sups B j) <-> Anc T j a)).
    { intros j b h. pose proof (wf _ _ _ e h) as lt. destruct (nth_error T j) as [cj|] eqn:ej.
      - exact (IHi j lt cj b ej).
      - exfalso. apply nth_error_None in ej. assert (nth_error T i <> None) by congruence. apply nth_error_Some in H. lia. }
    cbn [In]. rewrite in_flat_map. split.
    - intros [<-|(j & ij & h)]; [constructor|]. apply kept_sub in ij. apply (IH j a ij) in h. econstructor; [exact e|exact ij|exact h].
    - intros h. inversion h as [|? c' j ? e' ij ha]; subst; [left; reflexivity|right]. rewrite e in e'. injection e' as <-.
      destruct (cover c IH j ij) as (j' & i' & h'). exists j'. split; [exact i'|].
      apply IH; [apply kept_sub; exact i'|]. exact (anc_trans _ _ _ h' ha).
  Qed.
  Lemma parent_exists i c j : nth_error T i = Some c -> In j (cd_bases c ++ cd_ext c) -> exists cj, nth_error T j = Some cj.
  Proof.
    intros e h. pose proof (wf _ _ _ e h) as lt. destruct (nth_error T j) as [cj|] eqn:ej; [exists cj; reflexivity|].
    exfalso. apply nth_error_None in ej. assert (nth_error T i <> None) by congruence. apply nth_error_Some in H. lia.
  Qed.
  Lemma parent_sups i c j a : nth_error T i = Some c -> In j (cd_bases c ++ cd_ext c) -> (In a (the ks_sups B j) <-> Anc T j a).
  Proof. intros e h. destruct (parent_exists i c j e h) as [cj ej]. exact (sups_spec j cj a ej). Qed.
  Lemma cover_at i c j : nth_error T i = Some c -> In j (cd_bases c ++ cd_ext c) -> exists j', In j' (kept B c) /\ Anc T j' j.
  Proof. intros e. apply cover. intros x a h. exact (parent_sups i c x a e h). Qed.
  Lemma is_sub_spec i c a b : nth_error T i = Some c -> In a (cd_bases c ++ cd_ext c) -> (is_sub B a b = true <-> Anc T a b).
  Proof. intros e h. unfold is_sub. rewrite <- (parent_sups i c a b e h). split; [apply mem_In|]. intros x. destruct (mem b (the ks_sups B a)) eqn:m; [reflexivity|]. apply mem_not_In in m. destruct (m x). Qed.

  (** * lists gathered along the ancestors *)
  Lemma gathered {A} (f : kls -> list A) (g : cdecl -> list A) :
    (forall i c, nth_error T i = Some c -> the f B i = g c ++ flat_map (the f B) (kept B c)) ->
    forall i c x, nth_error T i = Some c -> (In x (the f B i) <-> SaidBy T i (fun c => In x (g c))).
  Proof.
    intros hf. induction i as [i IHi] using lt_wf_ind. intros c x e. rewrite (hf i c e), in_app_iff, in_flat_map. split.
    - intros [h|(j & ij & h)]; [exists i, c; repeat split; [constructor|exact e|exact h]|].
      apply kept_sub in ij. destruct (parent_exists i c j e ij) as [cj ej].
      apply (IHi j (wf _ _ _ e ij) cj x ej) in h. destruct h as (a & ca & ha & ea & h). exists a, ca. repeat split; [|exact ea|exact h].
      econstructor; [exact e|exact ij|exact ha].
    - intros (a & ca & ha & ea & h). inversion ha as [|? c' j ? e' ij ha']; subst.
      + rewrite e in ea. injection ea as <-. left. exact h.
      + rewrite e in e'. injection e' as <-. right. destruct (cover_at i c j e ij) as (j' & i' & h'). exists j'. split; [exact i'|].
        apply kept_sub in i'. destruct (parent_exists i c j' e i') as [cj ej]. apply (IHi j' (wf _ _ _ e i') cj x ej).
        exists a, ca. repeat split; [exact (anc_trans _ _ _ h' ha')|exact ea|exact h].
  Qed.

  (** * the keywords in force *)
  Definition lookup (n : string) (l : list jkw) : option jkw := find (fun k => beq (kname k) n) l.
  Fixpoint first_of (n : string) (ms : list (list jkw)) : option jkw :=
    match ms with [] => None | m :: ms' => match lookup n m with Some k => Some k | None => first_of n ms' end end.

  Lemma lookup_Some n l k : lookup n l = Some k -> In k l /\ kname k = n.
  Proof. intros h. apply find_some in h. destruct h as [i h]. split; [exact i|]. apply beq_true in h. exact h. Qed.
  Lemma lookup_None n l : lookup n l = None <-> forall k, In k l -> kname k <> n.
  Proof.
    split.
    - intros h k i e. apply (find_none _ _ h) in i. apply beq_false in i. exact (i e).
    - intros h. destruct (lookup n l) as [k|] eqn:e; [|reflexivity]. apply lookup_Some in e. destruct (h k (proj1 e) (proj2 e)).
  Qed.
  Lemma lookup_In l k : NoDup (map kname l) -> In k l -> lookup (kname k) l = Some k.
  Proof.
    induction l as [|x l IH]; cbn [map]; intros nd i; [destruct i|]. inversion nd as [|? ? n1 n2]; subst. unfold lookup. cbn [find].
    destruct i as [->|i]; [rewrite (proj2 (beq_true _ _ _) eq_refl); reflexivity|].
    destruct (beq (kname x) (kname k)) eqn:e; [|exact (IH n2 i)]. apply beq_true in e. exfalso. apply n1. rewrite e. apply in_map. exact i.
  Qed.
  Lemma lookup_app n l m : lookup n (l ++ m) = match lookup n l with Some k => Some k | None => lookup n m end.
  Proof. unfold lookup. induction l as [|x l IH]; cbn [find app]; [reflexivity|]. destruct (beq (kname x) n); [reflexivity|exact IH]. Qed.
  Lemma lookup_over n l m : lookup n (over l m) = match lookup n l with Some k => Some k | None => lookup n m end.
  Proof.
    unfold over. rewrite lookup_app. destruct (lookup n l) as [k|] eqn:e; [reflexivity|].
    rewrite lookup_None in e. induction m as [|x m IH]; cbn [filter]; [reflexivity|].
    destruct (mem (kname x) (map kname l)) eqn:em; cbn [negb].
    - unfold lookup at 2. cbn [find]. destruct (beq (kname x) n) eqn:eb; [|exact IH]. exfalso. apply beq_true in eb.
      apply mem_In in em. apply in_map_iff in em. destruct em as (y & ey & iy). apply (e y iy). congruence.
    - unfold lookup. cbn [find]. destruct (beq (kname x) n); [reflexivity|exact IH].
  Qed.
  Lemma lookup_chained n l ms : lookup n (chained l ms) = match lookup n l with Some k => Some k | None => first_of n ms end.
  Proof.
    revert l. unfold chained. induction ms as [|m ms IH]; intros l; cbn [fold_left first_of].
    - destruct (lookup n l); reflexivity.
    - rewrite IH, lookup_over. destruct (lookup n l); reflexivity.
  Qed.
  Lemma NoDup_over l m : NoDup (map kname l) -> NoDup (map kname m) -> NoDup (map kname (over l m)).
  Proof.
    intros h1 h2. unfold over. rewrite map_app. apply NoDup_app_intro; [exact h1| |].
    - clear h1. induction m as [|x m IH]; cbn [filter]; [constructor|]. cbn [map] in h2. inversion h2 as [|? ? n1 n2]; subst.
      destruct (negb _); [|exact (IH n2)]. cbn [map]. constructor; [|exact (IH n2)]. intros i. apply n1. apply in_map_iff in i.
      destruct i as (y & ey & iy). apply filter_In in iy. apply in_map_iff. exists y. split; [exact ey|exact (proj1 iy)].
    - intros x i j. apply in_map_iff in j. destruct j as (y & <- & iy). apply filter_In in iy. destruct iy as [_ h].
      apply negb_true_iff in h. apply mem_not_In in h. exact (h i).
  Qed.
  Lemma NoDup_chained l ms : NoDup (map kname l) -> (forall m, In m ms -> NoDup (map kname m)) -> NoDup (map kname (chained l ms)).
  Proof.
    unfold chained. revert l. induction ms as [|m ms IH]; intros l h1 h2; cbn [fold_left]; [exact h1|]. apply IH.
    - apply NoDup_over; [exact h1|]. apply h2. left. reflexivity.
    - intros x i. apply h2. right. exact i.
  Qed.

  Hypothesis once : Once T.

  Lemma schema_once : forall i, NoDup (map kname (the ks_schema B i)).
  Proof.
    induction i as [i IHi] using lt_wf_ind. destruct (nth_error T i) as [c|] eqn:e.
    - destruct (class_at i c e) as (k & ek & _ & _ & _ & _ & _ & es & _). rewrite (the_at ks_schema _ _ ek), es.
      apply NoDup_chained; [exact (once _ _ e)|]. intros m im. apply in_map_iff in im. destruct im as (j & <- & ij). apply IHi.
      apply (wf _ _ _ e). apply (kept_sub c). apply in_or_app. left. exact ij.
    - unfold the. destruct (nth_error B i) eqn:eb; [|constructor]. exfalso. apply nth_error_None in e.
      assert (nth_error B i <> None) by congruence. apply nth_error_Some in H. unfold B in H. rewrite build_length in H. lia.
  Qed.

  Lemma replaced_spec i c b : nth_error T i = Some c -> (existsb (fun e => is_sub B e b) (kept_ext B c) = true <-> Replaced T c b).
  Proof.
    intros e. rewrite existsb_exists. split.
    - intros (x & ix & s). apply filter_In in ix. destruct ix as [ix h]. exists x. split; [exact ix|]. split.
      + intros b' ib ha. apply negb_true_iff in h. assert (t : existsb (fun b => is_sub B b x) (cd_bases c) = true).
        { apply existsb_exists. exists b'. split; [exact ib|]. apply (is_sub_spec i c); [exact e|apply in_or_app; left; exact ib|exact ha]. }
        congruence.
      + apply (is_sub_spec i c); [exact e|apply in_or_app; right; exact ix|exact s].
    - intros (x & ix & h & ha). exists x. split.
      + apply filter_In. split; [exact ix|]. apply negb_true_iff. destruct (existsb _ _) eqn:ee; [|reflexivity].
        apply existsb_exists in ee. destruct ee as (b' & ib & s). exfalso. apply (h b' ib). apply (is_sub_spec i c); [exact e|apply in_or_app; left; exact ib|exact s].
      + apply (is_sub_spec i c); [exact e|apply in_or_app; right; exact ix|exact ha].
  Qed.
  Definition stays (c : cdecl) (b : nat) : bool := negb (existsb (fun e => is_sub B e b) (kept_ext B c)).
  Lemma stays_spec i c b : nth_error T i = Some c -> (stays c b = true <-> ~ Replaced T c b).
  Proof.
    intros e. unfold stays. rewrite negb_true_iff. rewrite <- (replaced_spec i c b e). destruct (existsb _ _); split; intros h; try reflexivity; try discriminate.
    - exfalso. apply h. reflexivity.
  Qed.

  Lemma schema_lookup i c n : nth_error T i = Some c ->
    lookup n (the ks_schema B i) = match lookup n (cd_own c) with Some k => Some k | None => first_of n (map (the ks_schema B) (filter (stays c) (cd_bases c))) end.
  Proof.
    intros e. destruct (class_at i c e) as (k & ek & _ & _ & _ & _ & _ & es & _). rewrite (the_at ks_schema _ _ ek), es. apply lookup_chained.
  Qed.

  Lemma first_filter n p (g : nat -> list jkw) l :
    (exists pre b post k, l = pre ++ b :: post /\ p b = true /\ lookup n (g b) = Some k
       /\ Forall (fun x => p x = false \/ lookup n (g x) = None) pre /\ first_of n (map g (filter p l)) = Some k)
    \/ Forall (fun x => p x = false \/ lookup n (g x) = None) l /\ first_of n (map g (filter p l)) = None.
  Proof.
    induction l as [|x l IH]; cbn [filter]; [right; split; [constructor|reflexivity]|].
    destruct (p x) eqn:ep; cbn [map first_of].
    - destruct (lookup n (g x)) as [k|] eqn:el.
      + left. exists [], x, l, k. repeat split; [exact ep|exact el|constructor].
      + destruct IH as [(pre & b & post & k & -> & h1 & h2 & h3 & h4)|[h1 h2]].
        * left. exists (x :: pre), b, post, k. repeat split; try assumption. constructor; [right; exact el|exact h3].
        * right. split; [constructor; [right; exact el|exact h1]|exact h2].
    - destruct IH as [(pre & b & post & k & -> & h1 & h2 & h3 & h4)|[h1 h2]].
      + left. exists (x :: pre), b, post, k. repeat split; try assumption. constructor; [left; exact ep|exact h3].
      + right. split; [constructor; [left; exact ep|exact h1]|exact h2].
  Qed.
  Lemma first_at n (p : nat -> bool) (g : nat -> list jkw) pre b post k :
    p b = true -> lookup n (g b) = Some k -> Forall (fun x => p x = false \/ lookup n (g x) = None) pre ->
    first_of n (map g (filter p (pre ++ b :: post))) = Some k.
  Proof.
    intros h1 h2 h3. induction pre as [|x pre IH]; cbn [app filter].
    - rewrite h1. cbn [map first_of]. rewrite h2. reflexivity.
    - inversion h3 as [|? ? g1 g2]; subst. destruct (p x) eqn:ep; [|exact (IH g2)]. destruct g1 as [g1|g1]; [congruence|].
      cbn [map first_of]. rewrite g1. exact (IH g2).
  Qed.
  Lemma first_none n (p : nat -> bool) (g : nat -> list jkw) l :
    Forall (fun x => p x = false \/ lookup n (g x) = None) l -> first_of n (map g (filter p l)) = None.
  Proof.
    induction 1 as [|x l h _ IH]; cbn [filter]; [reflexivity|]. destruct (p x) eqn:ep; [|exact IH]. destruct h as [h|h]; [congruence|].
    cbn [map first_of]. rewrite h. exact IH.
  Qed.

  Lemma in_force : forall i c n o, nth_error T i = Some c -> (InForce T i n o <-> lookup n (the ks_schema B i) = o).
  Proof.
    induction i as [i IHi] using lt_wf_ind. intros c n o e. rewrite (schema_lookup i c n e).
    assert (IH : forall b o, In b (cd_bases c) -> (InForce T b n o <-> lookup n (the ks_schema B b) = o)).
    { intros b o' ib. assert (ib' : In b (cd_bases c ++ cd_ext c)) by (apply in_or_app; left; exact ib).
      destruct (parent_exists i c b e ib') as [cb eb]. exact (IHi b (wf _ _ _ e ib') cb n o' eb). }
    assert (fa : forall l, (forall x, In x l -> In x (cd_bases c)) ->
      (Forall (fun p => Replaced T c p \/ InForce T p n None) l <-> Forall (fun x => stays c x = false \/ lookup n (the ks_schema B x) = None) l)).
    { intros l hl. rewrite !Forall_forall. split; intros h x ix; destruct (h x ix) as [r|r].
      - left. destruct (stays c x) eqn:es; [|reflexivity]. apply (stays_spec i c x e) in es. destruct (es r).
      - right. apply (IH x None (hl x ix)). exact r.
      - left. apply (replaced_spec i c x e). unfold stays in r. apply negb_false_iff in r. exact r.
      - right. apply (IH x None (hl x ix)). exact r. }
    split.
    - intros h. inversion h as [? c' k e' ik|? c' ? pre b post k e' hn eb nr hb hp|? c' ? e' hn hp]; subst; rewrite e in e'; injection e' as <-.
      + rewrite (lookup_In _ _ (once _ _ e) ik). reflexivity.
      + rewrite (proj2 (lookup_None n (cd_own c)) hn). rewrite eb. apply first_at.
        * apply (stays_spec i c b e). exact nr.
        * apply IH; [|exact hb]. rewrite eb. apply in_or_app. right. left. reflexivity.
        * apply fa; [|exact hp]. intros x ix. rewrite eb. apply in_or_app. left. exact ix.
      + rewrite (proj2 (lookup_None n (cd_own c)) hn). apply first_none. apply fa; [intros x ix; exact ix|exact hp].
    - destruct (lookup n (cd_own c)) as [k|] eqn:el.
      + intros <-. apply lookup_Some in el. destruct el as [ik <-]. eapply if_own; [exact e|exact ik].
      + intros <-. pose proof (proj1 (lookup_None _ _) el) as hn.
        destruct (first_filter n (stays c) (the ks_schema B) (cd_bases c)) as [(pre & b & post & k & eb & h1 & h2 & h3 & h4)|[h1 h2]].
        * rewrite h4. eapply if_base; [exact e|exact hn|exact eb|apply (stays_spec i c b e); exact h1| |].
          -- apply IH; [|exact h2]. rewrite eb. apply in_or_app. right. left. reflexivity.
          -- apply fa; [|exact h3]. intros x ix. rewrite eb. apply in_or_app. left. exact ix.
        * rewrite h2. eapply if_none; [exact e|exact hn|]. apply fa; [intros x ix; exact ix|exact h1].
  Qed.
  Lemma schema_In i c k : nth_error T i = Some c -> (In k (the ks_schema B i) <-> InForce T i (kname k) (Some k)).
  Proof.
    intros e. rewrite (in_force i c _ _ e). split.
    - apply lookup_In. apply schema_once.
    - intros h. apply lookup_Some in h. exact (proj1 h).
  Qed.
End Table.

(** * the keywords on a mapping do not look at their siblings *)
Lemma siblings search l k d : kname k <> "additionalProperties"%string ->
  (SatK search program l k (VDict d) <-> SatK search program [] k (VDict d)).
Proof.
  intros h. destruct k; try reflexivity.
  - cbn [SatK]. split; intros _ a e; discriminate e.
  - destruct h. reflexivity.
Qed.
Lemma required_of_In n l : In n (required_of l) <-> exists r, In (KRequired r) l /\ In n r.
Proof.
  unfold required_of. rewrite in_flat_map. split.
  - intros (k & ik & h). destruct k; try (exfalso; exact h). eexists. split; [exact ik|exact h].
  - intros (r & i & h). exists (KRequired r). split; assumption.
Qed.
Lemma names_of_In n l : In n (names_of l) <-> exists r, In (KProps r) l /\ In n (map fst r).
Proof.
  unfold names_of. rewrite in_flat_map. split.
  - intros (k & ik & h). destruct k; try (exfalso; exact h). eexists. split; [exact ik|exact h].
  - intros (r & i & h). exists (KProps r). split; assumption.
Qed.
Lemma patterns_of_In n l : In n (patterns_of l) <-> exists r, In (KPats r) l /\ In n (map fst r).
Proof.
  unfold patterns_of. rewrite in_flat_map. split.
  - intros (k & ik & h). destruct k; try (exfalso; exact h). eexists. split; [exact ik|exact h].
  - intros (r & i & h). exists (KPats r). split; assumption.
Qed.
Lemma more_of_spec l : more_of l = false <-> In (KMore (JBool false)) l.
Proof.
  unfold more_of. rewrite negb_false_iff, existsb_exists. split.
  - intros (k & ik & h). destruct k; try discriminate h. destruct s as [[|]|]; try discriminate h. exact ik.
  - intros i. exists (KMore (JBool false)). split; [exact i|reflexivity].
Qed.
