(** Properties of walking through collections (C64). *)
From Verif Require Import Walk_Model Walk_Spec Uri_Props.
Local Open Scope char_scope. Local Open Scope list_scope.

Lemma dget_mid (a b : list (str * jv)) k v : ~ In k (map fst a) -> dget k (a ++ (k, v) :: b) = Some v.
Proof.
  induction a as [|[j w] a IH]; intros n; cbn [app dget].
  - destruct (eq_dec k k); [reflexivity|congruence].
  - destruct (eq_dec k j) as [->|_]; [destruct n; left; reflexivity|]. apply IH. intros i. apply n. right. exact i.
Qed.
Lemma dset_mid (a b : list (str * jv)) k v w : ~ In k (map fst a) -> dset k w (a ++ (k, v) :: b) = a ++ (k, w) :: b.
Proof.
  induction a as [|[j x] a IH]; intros n; cbn [app dset].
  - destruct (eq_dec k k); [reflexivity|congruence].
  - destruct (eq_dec k j) as [->|_]; [destruct n; left; reflexivity|]. f_equal. apply IH. intros i. apply n. right. exact i.
Qed.
Lemma lput_mid {A} (a b : list A) x y : lput (a ++ x :: b) (length a) y = a ++ y :: b.
Proof. induction a as [|z a IH]; cbn; [reflexivity|f_equal; exact IH]. Qed.
Lemma nth_mid' {A} (a b : list A) x : nth_error (a ++ x :: b) (length a) = Some x.
Proof. rewrite nth_error_app2, Nat.sub_diag by apply Nat.le_refl. reflexivity. Qed.

Scheme Walked_mind := Induction for Walked Sort Prop with WMap_mind := Induction for WMap Sort Prop with WList_mind := Induction for WList Sort Prop.

Section Replace.
  Variable g : nat -> pos -> jv -> res jv.
  Hypothesis gwf : forall l p v v', Wf v -> g l p v = Ok v' -> Wf v'.
  Hypothesis gsize : forall l p v v', g l p v = Ok v' -> size v' <= size v.

  Definition Raised (e : exn) : Prop := exists l p v, g l p v = Err e.
  (** what [walk] promises for one collection *)
  Definition Done (l : nat) (c : jv) (r : res jv) : Prop := (exists c', r = Ok c' /\ Walked g l c c') \/ (exists e, r = Err e /\ Raised e).

  Lemma member_done f l c0 p v : (forall c, Wf c -> size c < f -> Done (S l) c (walk (replacing g) f (S l) c)) -> Wf v -> size v < f -> 1 < f ->
    (forall w, jget (c0 w) p = Some w /\ (forall w', jput (c0 w) p w' = c0 w')) ->
    (exists v1 v', (do c1 <- replacing g l (c0 v) p; member (walk (replacing g) f (S l)) c1 p) = Ok (c0 v') /\ g l p v = Ok v1 /\ Walked g (S l) v1 v') \/
    (exists e, (do c1 <- replacing g l (c0 v) p; member (walk (replacing g) f (S l)) c1 p) = Err e /\ Raised e).
  Proof.
    intros IH hw hs h1 hc. unfold replacing at 1 3. destruct (hc v) as [e1 e2]. rewrite e1. destruct (g l p v) as [v1|e] eqn:eg; cbn [rbind].
    2:{ right. exists e. split; [reflexivity|]. exists l, p, v. exact eg. }
    rewrite e2. unfold member. destruct (hc v1) as [e3 e4]. rewrite e3.
    assert (w1 : Wf v1) by (eapply gwf; eassumption). assert (s1 : size v1 < f) by (eapply Nat.le_lt_trans; [eapply gsize; exact eg|exact hs]).
    assert (hd := IH v1 w1 s1). destruct v1 as [s|n|d|xs].
    - left. exists (JStr s), (JStr s). split; [reflexivity|split; [reflexivity|constructor]].
    - left. exists (JAtom n), (JAtom n). split; [reflexivity|split; [reflexivity|constructor]].
    - destruct hd as [(c' & -> & hW)|(e & -> & hr)]; cbn [rbind]; [|right; eauto]. left. exists (JMap d), c'. rewrite e4. auto.
    - destruct hd as [(c' & -> & hW)|(e & -> & hr)]; cbn [rbind]; [|right; eauto]. left. exists (JList xs), c'. rewrite e4. auto.
  Qed.
  Lemma keys_done f l : (forall c, Wf c -> size c < f -> Done (S l) c (walk (replacing g) f (S l) c)) -> forall todo done,
    NoDup (map fst (done ++ todo)) -> (forall k v, In (k, v) todo -> Wf v /\ size v < f) -> 1 < f ->
    (exists d', over_keys (fun c p => do c1 <- replacing g l c p; member (walk (replacing g) f (S l)) c1 p) (map fst todo) (JMap (done ++ todo)) = Ok (JMap (done ++ d')) /\ WMap g l todo d') \/
    (exists e, over_keys (fun c p => do c1 <- replacing g l c p; member (walk (replacing g) f (S l)) c1 p) (map fst todo) (JMap (done ++ todo)) = Err e /\ Raised e).
  Proof.
    intros IH. induction todo as [|[k v] todo IHt]; intros done nd hv h1.
    - left. exists []. split; [reflexivity|constructor].
    - cbn [map over_keys fst]. assert (nk : ~ In k (map fst done)).
      { rewrite map_app in nd. cbn in nd. apply NoDup_remove_2 in nd. intros i. apply nd. apply in_or_app. left. exact i. }
      destruct (hv k v (or_introl eq_refl)) as [wv sv].
      destruct (member_done f l (fun w => JMap (done ++ (k, w) :: todo)) (PKey k) v IH wv sv h1) as [(v1 & v' & e1 & e2 & e3)|(e & e1 & hr)].
      { intros w. cbn [jget jput]. split; [apply dget_mid; exact nk|]. intros w'. rewrite dset_mid by exact nk. reflexivity. }
      + rewrite e1. cbn [rbind]. replace (done ++ (k, v') :: todo) with ((done ++ [(k, v')]) ++ todo) by (rewrite <- app_assoc; reflexivity).
        destruct (IHt (done ++ [(k, v')])) as [(d' & h2 & h3)|(e & h2 & h3)].
        * rewrite <- app_assoc. rewrite map_app in *. exact nd.
        * intros k0 v0 i. apply (hv k0). right. exact i.
        * exact h1.
        * left. exists ((k, v') :: d'). rewrite h2, <- app_assoc. split; [reflexivity|]. econstructor; eassumption.
        * right. exists e. split; assumption.
      + right. exists e. rewrite e1. split; [reflexivity|exact hr].
  Qed.
  Lemma items_done f l : (forall c, Wf c -> size c < f -> Done (S l) c (walk (replacing g) f (S l) c)) -> forall todo done n,
    length todo < n -> (forall v, In v todo -> Wf v /\ size v < f) -> 1 < f ->
    (exists d', over_items (fun c p => do c1 <- replacing g l c p; member (walk (replacing g) f (S l)) c1 p) n (length done) (JList (done ++ todo)) = Ok (JList (done ++ d')) /\ WList g l (length done) todo d') \/
    (exists e, over_items (fun c p => do c1 <- replacing g l c p; member (walk (replacing g) f (S l)) c1 p) n (length done) (JList (done ++ todo)) = Err e /\ Raised e).
  Proof.
    intros IH. induction todo as [|v todo IHt]; intros done n ln hv h1; (destruct n as [|n]; [destruct (Nat.nlt_0_r _ ln)|]); cbn [over_items jget].
    - rewrite app_nil_r, (proj2 (nth_error_None done (length done))) by apply Nat.le_refl. left. exists []. rewrite app_nil_r. split; [reflexivity|constructor].
    - rewrite nth_mid'. destruct (hv v (or_introl eq_refl)) as [wv sv].
      destruct (member_done f l (fun w => JList (done ++ w :: todo)) (PIdx (length done)) v IH wv sv h1) as [(v1 & v' & e1 & e2 & e3)|(e & e1 & hr)].
      { intros w. cbn [jget jput]. split; [apply nth_mid'|]. intros w'. rewrite lput_mid. reflexivity. }
      + rewrite e1. cbn [rbind]. replace (done ++ v' :: todo) with ((done ++ [v']) ++ todo) by (rewrite <- app_assoc; reflexivity).
        replace (S (length done)) with (length (done ++ [v'])) by (rewrite app_length; apply Nat.add_1_r).
        destruct (IHt (done ++ [v']) n) as [(d' & h2 & h3)|(e & h2 & h3)].
        * apply Nat.succ_lt_mono. exact ln.
        * intros v0 i. apply hv. right. exact i.
        * exact h1.
        * left. exists (v' :: d'). rewrite h2, <- app_assoc. split; [reflexivity|]. rewrite app_length, Nat.add_1_r in h3. econstructor; eassumption.
        * right. exists e. split; assumption.
      + right. exists e. rewrite e1. split; [reflexivity|exact hr].
  Qed.
  Lemma size_map_in d k v : In (k, v) d -> size v < size (JMap d).
  Proof.
    cbn [size]. induction d as [|[j w] d IH]; [intros []|]. intros [h|i].
    - injection h as -> ->. apply le_n_S. apply le_S. apply Nat.le_add_r.
    - specialize (IH i). eapply Nat.lt_le_trans; [exact IH|]. apply le_n_S. apply le_S. rewrite Nat.add_comm. apply Nat.le_add_r.
  Qed.
  Lemma size_list_in l v : In v l -> size v < size (JList l).
  Proof.
    cbn [size]. induction l as [|w l IH]; [intros []|]. intros [<-|i].
    - apply le_n_S. apply le_S. apply Nat.le_add_r.
    - specialize (IH i). eapply Nat.lt_le_trans; [exact IH|]. apply le_n_S. apply le_S. rewrite Nat.add_comm. apply Nat.le_add_r.
  Qed.
  Lemma size_list_len l : length l < size (JList l).
  Proof.
    cbn [size]. apply Nat.lt_succ_r. induction l as [|w l IH]; [apply Nat.le_refl|]. cbn [length]. apply le_n_S. eapply Nat.le_trans; [exact IH|]. rewrite Nat.add_comm. apply Nat.le_add_r.
  Qed.
  Lemma size_pos c : 0 < size c. Proof. destruct c; apply Nat.lt_0_succ. Qed.

  (** every member at every depth is replaced once, before its own members; the walk ends, and only the function raises *)
  Theorem walk_replaces : forall fuel l c, Wf c -> size c < fuel ->
    (exists c', walk (replacing g) fuel l c = Ok c' /\ Walked g l c c') \/ (exists e, walk (replacing g) fuel l c = Err e /\ Raised e).
  Proof.
    induction fuel as [|f IH]; intros l c hw hs; [destruct (Nat.nlt_0_r _ hs)|]. 
    assert (IH' : forall l c, Wf c -> size c < f -> Done l c (walk (replacing g) f l c)) by exact IH. clear IH.
    destruct c as [s|n|d|xs]; cbn [walk].
    - left. exists (JStr s). split; [reflexivity|constructor].
    - left. exists (JAtom n). split; [reflexivity|constructor].
    - inversion hw as [| |d0 nd hv|]; subst. destruct d as [|kv d]; [left; exists (JMap []); split; [reflexivity|repeat constructor]|].
      assert (h1 : 1 < f). { destruct kv as [k v]. apply (proj1 (Nat.lt_succ_r _ _)) in hs. eapply Nat.lt_le_trans; [|exact hs]. cbn [size]. apply le_n_S. apply Nat.lt_0_succ. }
      destruct (keys_done f l (IH' (S l)) (kv :: d) [] nd) as [(d' & e1 & e2)|(e & e1 & e2)]; [|exact h1| |].
      + intros k v i. split; [eapply hv; exact i|]. eapply Nat.lt_le_trans; [eapply size_map_in; exact i|]. apply Nat.lt_succ_r. exact hs.
      + left. exists (JMap d'). split; [exact e1|constructor; exact e2].
      + right. exists e. split; assumption.
    - inversion hw as [| | |l0 hv]; subst. destruct xs as [|x xs].
      { left. exists (JList []). apply (proj1 (Nat.lt_succ_r _ _)) in hs. destruct f as [|f]; [destruct (Nat.nle_succ_0 _ hs)|]. split; [reflexivity|repeat constructor]. }
      assert (h1 : 1 < f). { apply (proj1 (Nat.lt_succ_r _ _)) in hs. eapply Nat.lt_le_trans; [|exact hs]. cbn [size]. apply le_n_S. apply Nat.lt_0_succ. }
      destruct (items_done f l (IH' (S l)) (x :: xs) [] f) as [(d' & e1 & e2)|(e & e1 & e2)]; [| |exact h1| |].
      + eapply Nat.lt_le_trans; [apply size_list_len|]. apply Nat.lt_succ_r. exact hs.
      + intros v i. split; [apply hv; exact i|]. eapply Nat.lt_le_trans; [apply size_list_in; exact i|]. apply Nat.lt_succ_r. exact hs.
      + left. exists (JList d'). split; [exact e1|constructor; exact e2].
      + right. exists e. split; assumption.
  Qed.
  (** the result has the keys and at most the size of the original *)
  Lemma walked_kept l c c' : Walked g l c c' -> (Wf c -> Wf c') /\ size c' <= size c.
  Proof.
    revert l c c'. apply (Walked_mind g (fun _ c c' _ => (Wf c -> Wf c') /\ size c' <= size c)
      (fun _ d d' _ => map fst d' = map fst d /\ ((forall k v, In (k, v) d -> Wf v) -> forall k v, In (k, v) d' -> Wf v) /\ size (JMap d') <= size (JMap d))
      (fun _ _ xs xs' _ => ((forall v, In v xs -> Wf v) -> forall v, In v xs' -> Wf v) /\ size (JList xs') <= size (JList xs))).
    - intros l s. auto.
    - intros l n. auto.
    - intros l d d' _ (h1 & h2 & h3). split; [|exact h3]. intros w. inversion w as [| |d0 nd hv|]; subst. constructor; [rewrite h1; exact nd|apply h2; exact hv].
    - intros l xs xs' _ (h2 & h3). split; [|exact h3]. intros w. inversion w as [| | |l0 hv]; subst. constructor. apply h2. exact hv.
    - intros l. split; [reflexivity|]. split; [intros _ k v []|apply Nat.le_refl].
    - intros l k v v1 v' d d' e _ [w1 s1] _ (h1 & h2 & h3). split; [cbn; f_equal; exact h1|]. split.
      + intros hv j x [h|i]; [injection h as <- <-; apply w1; eapply gwf; [eapply hv; left; reflexivity|exact e]|]. apply (h2 (fun k0 v0 i0 => hv k0 v0 (or_intror i0)) j x i).
      + cbn [size] in *. apply le_n_S. apply le_n_S. apply Nat.add_le_mono; [eapply Nat.le_trans; [exact s1|eapply gsize; exact e]|]. apply le_S_n. exact h3.
    - intros l i. split; [intros _ v []|apply Nat.le_refl].
    - intros l i v v1 v' xs xs' e _ [w1 s1] _ (h2 & h3). split.
      + intros hv x [<-|j]; [apply w1; eapply gwf; [apply hv; left; reflexivity|exact e]|]. apply (h2 (fun v0 i0 => hv v0 (or_intror i0)) x j).
      + cbn [size] in *. apply le_n_S. apply le_n_S. apply Nat.add_le_mono; [eapply Nat.le_trans; [exact s1|eapply gsize; exact e]|]. apply le_S_n. exact h3.
  Qed.
End Replace.
Print Assumptions walk_replaces.

(** * Reading a walked collection *)
Lemma wmap_get g l d d' k : WMap g l d d' -> 
  match dget k d, dget k d' with
  | Some v, Some v' => exists v1, g l (PKey k) v = Ok v1 /\ Walked g (S l) v1 v'
  | None, None => True
  | _, _ => False
  end.
Proof.
  induction 1 as [l|l j v v1 v' d d' e w _ IH]; [exact I|]. cbn [dget]. destruct (eq_dec k j) as [->|_]; [exists v1; auto|exact IH].
Qed.
Lemma wlist_get g l i xs xs' : WList g l i xs xs' -> forall j,
  match nth_error xs j, nth_error xs' j with
  | Some v, Some v' => exists v1, g l (PIdx (i + j)) v = Ok v1 /\ Walked g (S l) v1 v'
  | None, None => True
  | _, _ => False
  end.
Proof.
  induction 1 as [l i|l i v v1 v' xs xs' e w _ IH]; intros [|j]; cbn [nth_error]; auto.
  - exists v1. rewrite Nat.add_0_r. auto.
  - specialize (IH j). rewrite Nat.add_succ_r. exact IH.
Qed.
Lemma walked_get g l c c' p : Walked g l c c' ->
  match jget c p, jget c' p with
  | Some v, Some v' => exists v1, g l p v = Ok v1 /\ Walked g (S l) v1 v'
  | None, None => True
  | _, _ => False
  end.
Proof.
  intros w. destruct w as [l s|l n|l d d' w|l xs xs' w]; destruct p as [k|i]; cbn [jget]; auto.
  - apply (wmap_get g l d d' k w).
  - apply (wlist_get g l 0 xs xs' w i).
Qed.

(** * Scoping references *)
Definition ref : str := chars "$ref".
Lemma refpath_cons p q : RefPath (p :: q) <-> (exists k, p = PKey k) /\ q = [PKey ref] \/ RefPath q.
Proof.
  split.
  - intros (q0 & k & e). destruct q0 as [|p0 q0]; injection e as -> ->; [left; eauto|right; exists q0, k; reflexivity].
  - intros [[(k & ->) ->]|(q0 & k & ->)]; [exists [], k; reflexivity|exists (p :: q0), k; reflexivity].
Qed.
Lemma scope_ref_cases id l p v v1 : scope_ref id l p v = Ok v1 ->
  (v1 = v /\ forall k d s, p = PKey k -> v = JMap d -> dget ref d <> Some (JStr s) /\ forall n, dget ref d <> Some (JAtom n)) \/
  (exists k d s, p = PKey k /\ v = JMap d /\ dget ref d = Some (JStr s) /\ v1 = JMap (dset ref (JStr (scope s id)) d)).
Proof.
  unfold scope_ref. change (chars "$ref") with ref. destruct p as [k|i]; [|intros h; injection h as <-; left; split; [reflexivity|discriminate]].
  destruct v as [s|n|d|xs]; try (intros h; injection h as <-; left; split; [reflexivity|discriminate]).
  destruct (dget ref d) as [[s|n|e|xs]|] eqn:ed.
  - intros h. injection h as <-. right. exists k, d, s. auto.
  - discriminate.
  - destruct (dmem ["#"] e); [discriminate|]. intros h. injection h as <-. left. split; [reflexivity|]. intros k0 d0 s _ h. injection h as <-. split; congruence.
  - destruct (existsb _ xs); [discriminate|]. intros h. injection h as <-. left. split; [reflexivity|]. intros k0 d0 s _ h. injection h as <-. split; congruence.
  - intros h. injection h as <-. left. split; [reflexivity|]. intros k0 d0 s _ h. injection h as <-. split; congruence.
Qed.
Lemma wf_dset d k v : Wf (JMap d) -> Wf v -> Wf (JMap (dset k v d)).
Proof.
  intros hw hv. inversion hw as [| |d0 nd h|]; subst. constructor.
  - apply (dwf_dset k v d nd).
  - clear nd hw. intros j w. induction d as [|[i x] d IH]; cbn [dset].
    + intros [e|[]]. injection e as <- <-. exact hv.
    + destruct (eq_dec k i) as [->|_].
      * intros [e|i']; [injection e as <- <-; exact hv|eapply h; right; exact i'].
      * intros [e|i']; [injection e as <- <-; eapply h; left; reflexivity|]. apply IH; [|exact i']. intros k0 v0 i0. eapply h. right. exact i0.
Qed.
Lemma size_dset d k v w : dget k d = Some w -> size v = size w -> size (JMap (dset k v d)) = size (JMap d).
Proof.
  intros e es. cbn [size]. f_equal. revert e. induction d as [|[i x] d IH]; [discriminate|]. cbn [dget dset]. destruct (eq_dec k i) as [->|_].
  - intros e. injection e as ->. rewrite es. reflexivity.
  - intros e. f_equal. f_equal. apply IH. exact e.
Qed.
Lemma scope_ref_wf id l p v v1 : Wf v -> scope_ref id l p v = Ok v1 -> Wf v1.
Proof. intros w h. apply scope_ref_cases in h. destruct h as [[-> _]|(k & d & s & -> & -> & _ & ->)]; [exact w|]. apply wf_dset; [exact w|constructor]. Qed.
Lemma scope_ref_size id l p v v1 : scope_ref id l p v = Ok v1 -> size v1 <= size v.
Proof. intros h. apply scope_ref_cases in h. destruct h as [[-> _]|(k & d & s & -> & -> & e & ->)]; [apply Nat.le_refl|]. erewrite size_dset; [apply Nat.le_refl|exact e|reflexivity]. Qed.

(** the text or number expected at a path of the scoped collection *)
Definition rescoped (id : str) (x : jv) : jv := match x with JStr s => JStr (scope s id) | _ => x end.
Inductive Expected (id : str) (q : list pos) (x : jv) : jv -> Prop :=
| expect_ref : RefPath q -> Expected id q x (rescoped id x)
| expect_same : ~ RefPath q -> Expected id q x x.
Lemma refpath_dec q : RefPath q \/ ~ RefPath q.
Proof.
  induction q as [|p q [h|h]].
  - right. intros ([|] & k & e); discriminate.
  - left. destruct h as (q0 & k & ->). exists (p :: q0), k. reflexivity.
  - destruct p as [k|i].
    + destruct q as [|[r|i] [|p2 q]].
      * right. intros ([|? [|]] & k0 & e); discriminate.
      * destruct (list_eq_dec Ascii.ascii_dec r ref) as [->|ne]; [left; exists [], k; reflexivity|].
        right. intros ([|? [|? [|]]] & k0 & e); try discriminate. injection e as _ e. exact (ne e).
      * right. intros hr. apply refpath_cons in hr. destruct hr as [[_ e]|hr]; [discriminate|exact (h hr)].
      * right. intros hr. apply refpath_cons in hr. destruct hr as [[_ e]|hr]; [discriminate|exact (h hr)].
      * right. intros hr. apply refpath_cons in hr. destruct hr as [[_ e]|hr]; [discriminate|exact (h hr)].
    + right. intros hr. apply refpath_cons in hr. destruct hr as [[(k & e) _]|hr]; [discriminate|exact (h hr)].
Qed.

Lemma leaf_walked id l c c' q : Walked (scope_ref id) l c c' ->
  (forall x', leaf_at c' q = Some x' <-> exists x, leaf_at c q = Some x /\ Expected id q x x').
Proof.
  revert l c c'. induction q as [|p q IH]; intros l c c' w x'.
  - assert (nr : ~ RefPath []) by (intros ([|] & k & e); discriminate).
    destruct w as [l s|l n|l d d' w|l xs xs' w]; cbn [leaf_at]; split.
    + intros h. injection h as <-. exists (JStr s). split; [reflexivity|]. apply expect_same. exact nr.
    + intros (x & h & e). injection h as <-. destruct e as [r|_]; [destruct (nr r)|reflexivity].
    + intros h. injection h as <-. exists (JAtom n). split; [reflexivity|]. apply expect_same. exact nr.
    + intros (x & h & e). injection h as <-. destruct e as [r|_]; [destruct (nr r)|reflexivity].
    + discriminate. + intros (x & h & _). discriminate. + discriminate. + intros (x & h & _). discriminate.
  - assert (hg := walked_get (scope_ref id) l c c' p w). cbn [leaf_at]. destruct (jget c p) as [v|], (jget c' p) as [v'|]; try contradiction.
    2:{ split; [discriminate|]. intros (x & h & _). discriminate. }
    destruct hg as (v1 & eg & w1). rewrite (IH (S l) v1 v' w1 x'). apply scope_ref_cases in eg.
    destruct eg as [[-> nref]|(k & d & s & -> & -> & er & ->)].
    + assert (eq : forall x, leaf_at v q = Some x -> (Expected id q x x' <-> Expected id (p :: q) x x')).
      { intros x hx. assert (hr : RefPath (p :: q) <-> RefPath q).
        { rewrite refpath_cons. split; [|auto]. intros [[(k & ->) ->]|h]; [|exact h]. exfalso. cbn [leaf_at] in hx. destruct v as [s|n|d|xs]; try discriminate. cbn [jget] in hx.
          destruct (dget ref d) as [y|] eqn:ey; [|discriminate]. destruct y as [s|n|d'|xs]; try discriminate; [exact (proj1 (nref k d s eq_refl eq_refl) ey)|exact (proj2 (nref k d ref eq_refl eq_refl) n ey)]. }
        split; intros [r|n]; (apply expect_ref || apply expect_same); try (apply hr; exact r); intros y; apply n; apply hr; exact y. }
      split; intros (x & hx & e); exists x; (split; [exact hx|]); apply (eq x hx); exact e.
    + destruct q as [|p2 q].
      { cbn [leaf_at]. split; intros (x & h & _); discriminate. }
      cbn [leaf_at jget]. destruct p2 as [j|i]; [|split; intros (x & h & _); discriminate].
      destruct (eq_dec j ref) as [->|nj].
      * rewrite dget_dset, er. destruct (eq_dec ref ref) as [_|]; [|congruence]. destruct q as [|p3 q].
        { cbn [leaf_at]. assert (n1 : ~ RefPath [PKey ref]) by (intros ([|? [|]] & k0 & e); discriminate).
          assert (r2 : RefPath [PKey k; PKey ref]) by (exists [], k; reflexivity). split.
          - intros (x & h & e). injection h as <-. destruct e as [r|_]; [destruct (n1 r)|]. exists (JStr s). split; [reflexivity|].
            change (JStr (scope s id)) with (rescoped id (JStr s)). apply expect_ref. exact r2.
          - intros (x & h & e). injection h as <-. destruct e as [_|n]; [|destruct (n r2)]. exists (JStr (scope s id)). split; [reflexivity|]. apply expect_same. exact n1. }
        cbn [leaf_at jget]. destruct p3; (split; intros (x & h & _); discriminate).
      * rewrite dget_dset. destruct (eq_dec j ref) as [|_]; [congruence|].
        assert (hr : RefPath (PKey k :: PKey j :: q) <-> RefPath (PKey j :: q)).
        { rewrite refpath_cons. split; [|auto]. intros [[_ h]|h]; [injection h as -> _; congruence|exact h]. }
        destruct (dget j d) as [v2|]; [|split; intros (x & h & _); discriminate].
        split; intros (x & hx & e); exists x; (split; [exact hx|]); (destruct e as [r|n]; [apply expect_ref|apply expect_same]); try (apply hr; exact r); intros y; apply n; apply hr; exact y.
Qed.

(** in a schema made absolute, exactly the references of dictionaries under a key are scoped; all other texts, numbers,
    keys and positions stay *)
Theorem scope_refs_leaves : forall fuel id c c', Wf c -> size c < fuel -> scope_refs fuel id c = Ok c' ->
  forall q x', leaf_at c' q = Some x' <-> exists x, leaf_at c q = Some x /\ Expected id q x x'.
Proof.
  intros fuel id c c' w hs h. unfold scope_refs in h. 
  destruct (walk_replaces (scope_ref id) (scope_ref_wf id) (scope_ref_size id) fuel 0 c w hs) as [(c2 & e & hw)|(e & e1 & _)]; [|congruence].
  assert (c2 = c') by congruence. subst c2. intros q x'. apply (leaf_walked id 0 c c' q hw).
Qed.
Print Assumptions scope_refs_leaves.
(** it always ends; only a reference that is no text can raise *)
Theorem scope_refs_total : forall fuel id c, Wf c -> size c < fuel ->
  (exists c', scope_refs fuel id c = Ok c') \/ (exists e, scope_refs fuel id c = Err e /\ (e = TypeError \/ e = AttributeError)).
Proof.
  intros fuel id c w hs. destruct (walk_replaces (scope_ref id) (scope_ref_wf id) (scope_ref_size id) fuel 0 c w hs) as [(c2 & e & _)|(e & e1 & (l & p & v & er))]; [eauto|].
  right. exists e. split; [exact e1|]. unfold scope_ref in er. 
  repeat match type of er with context [match ?q with _ => _ end] => destruct q end; try discriminate; injection er as <-; auto.
Qed.
Print Assumptions scope_refs_total.
(** scoping again, even with another id, changes no text when the first id names a document *)
Theorem scope_refs_stable : forall fuel id id' c c' c'', Wf c -> size c < fuel -> (id' = id \/ hd [] (split_char "#" id) <> []) ->
  scope_refs fuel id c = Ok c' -> scope_refs fuel id' c' = Ok c'' -> forall q, leaf_at c'' q = leaf_at c' q.
Proof.
  intros fuel id id' c c' c'' w s hid h h' q.
  assert (k : Wf c' /\ size c' < fuel).
  { destruct (walk_replaces (scope_ref id) (scope_ref_wf id) (scope_ref_size id) fuel 0 c w s) as [(c2 & e & hw)|(e & e1 & _)]; unfold scope_refs in h; [|congruence].
    assert (c2 = c') by congruence. subst c2. apply (walked_kept (scope_ref id) (scope_ref_wf id) (scope_ref_size id)) in hw. destruct hw as [h1 h2].
    split; [apply h1; exact w|eapply Nat.le_lt_trans; [exact h2|exact s]]. }
  destruct k as [w' s'].
  assert (a := scope_refs_leaves fuel id c c' w s h q). assert (b := scope_refs_leaves fuel id' c' c'' w' s' h' q).
  assert (same : forall x, leaf_at c' q = Some x -> Expected id' q x x).
  { intros x hx. destruct (refpath_dec q) as [r|n]; [|apply expect_same; exact n]. apply a in hx. destruct hx as (y & _ & e). destruct e as [_|n]; [|destruct (n r)].
    assert (e : rescoped id' (rescoped id y) = rescoped id y).
    { destruct y; cbn [rescoped]; try reflexivity. f_equal. apply scope_idempotent. exact hid. }
    rewrite <- e at 2. apply expect_ref. exact r. }
  assert (det : forall x y z, Expected id' q x y -> Expected id' q x z -> y = z) by (intros x y z [r|n] [r'|n']; try reflexivity; contradiction).
  destruct (leaf_at c' q) as [x|] eqn:ex.
  - apply b. exists x. split; [reflexivity|apply same; reflexivity].
  - destruct (leaf_at c'' q) as [y|] eqn:ey; [|reflexivity]. destruct (proj1 (b y) eq_refl) as (x & hx & _). discriminate.
Qed.
Print Assumptions scope_refs_stable.
(** deviations: the reference of a list item (allOf, anyOf, items given as a list) and of the schema itself are not scoped *)
Theorem list_reference_unscoped_refuted : forall fuel id c c' q i s, Wf c -> size c < fuel -> scope_refs fuel id c = Ok c' ->
  leaf_at c (q ++ [PIdx i; PKey ref]) = Some (JStr s) -> leaf_at c' (q ++ [PIdx i; PKey ref]) = Some (JStr s).
Proof.
  intros fuel id c c' q i s w hs h e. apply (scope_refs_leaves fuel id c c' w hs h). exists (JStr s). split; [exact e|]. apply expect_same.
  intros (q0 & k & eq). assert (h2 : q ++ [PIdx i] = q0 ++ [PKey k]).
  { apply (app_inj_tail (q ++ [PIdx i]) (q0 ++ [PKey k]) (PKey ref) (PKey (chars "$ref"))). rewrite <- !app_assoc. exact eq. }
  apply app_inj_tail in h2. destruct h2 as [_ h2]. discriminate.
Qed.
Theorem top_reference_unscoped_refuted : forall fuel id c c' s, Wf c -> size c < fuel -> scope_refs fuel id c = Ok c' ->
  leaf_at c [PKey ref] = Some (JStr s) -> leaf_at c' [PKey ref] = Some (JStr s).
Proof.
  intros fuel id c c' s w hs h e. apply (scope_refs_leaves fuel id c c' w hs h). exists (JStr s). split; [exact e|]. apply expect_same.
  intros ([|? [|]] & k & eq); discriminate.
Qed.
Print Assumptions list_reference_unscoped_refuted. Print Assumptions top_reference_unscoped_refuted.

(** a function that deletes from a list makes the walk miss the next item *)
Definition drop_empty (level : nat) (c : jv) (p : pos) : res jv :=
  match c, p with JList l, PIdx i => match nth_error l i with Some (JAtom 0) => Ok (JList (firstn i l ++ skipn (S i) l)) | _ => Ok c end | _, _ => Ok c end.
Theorem walk_deletion_misses_refuted : forall n fuel l, n < fuel -> walk drop_empty (S fuel) l (JList (repeat (JAtom 0) n)) = Ok (JList (repeat (JAtom 0) (Nat.div2 n))).
Proof.
  intros n fuel l lt. cbn [walk]. set (act := fun c p => do c1 <- drop_empty l c p; member _ c1 p).
  assert (del : forall i n, nth_error (repeat (JAtom 0) n) i = Some (JAtom 0) -> firstn i (repeat (JAtom 0) n) ++ skipn (S i) (repeat (JAtom 0) n) = repeat (JAtom 0) (pred n)).
  { induction i as [|i IH]; intros [|m] e; try discriminate; [reflexivity|]. change (JAtom 0 :: (firstn i (repeat (JAtom 0) m) ++ skipn (S i) (repeat (JAtom 0) m)) = repeat (JAtom 0) m). cbn [repeat nth_error] in e. rewrite (IH m e). destruct m; [destruct i; discriminate|reflexivity]. }
  assert (st : forall i n, i < n -> act (JList (repeat (JAtom 0) n)) (PIdx i) = Ok (JList (repeat (JAtom 0) (pred n)))).
  { intros i m h. unfold act, drop_empty. rewrite nth_error_repeat by exact h. rewrite del by (apply nth_error_repeat; exact h). cbn [rbind]. unfold member. cbn [jget].
    destruct (Nat.lt_ge_cases i (pred m)) as [h'|h']; [rewrite nth_error_repeat by exact h'; reflexivity|].
    rewrite (proj2 (nth_error_None _ _)) by (rewrite repeat_length; exact h'). reflexivity. }
  (* from position i with 2 k or 2 k + 1 items more than i, k items remain beyond i *)
  assert (run : forall r i f, r < f -> over_items act f i (JList (repeat (JAtom 0) (i + r))) = Ok (JList (repeat (JAtom 0) (i + Nat.div2 r)))).
  { assert (two : forall r, (forall i f, r < f -> over_items act f i (JList (repeat (JAtom 0) (i + r))) = Ok (JList (repeat (JAtom 0) (i + Nat.div2 r)))) /\
                            (forall i f, S r < f -> over_items act f i (JList (repeat (JAtom 0) (i + S r))) = Ok (JList (repeat (JAtom 0) (i + Nat.div2 (S r)))))).
    { induction r as [|r [IH1 IH2]].
      - split; intros i f h.
        + destruct f as [|f]; [destruct (Nat.nlt_0_r _ h)|]. cbn [over_items jget Nat.div2]. rewrite Nat.add_0_r, (proj2 (nth_error_None _ _)) by (rewrite repeat_length; apply Nat.le_refl). reflexivity.
        + destruct f as [|[|f]]; [destruct (Nat.nlt_0_r _ h)|destruct (Nat.lt_irrefl _ h)|]. rewrite Nat.add_1_r. cbn [over_items jget Nat.div2].
          rewrite nth_error_repeat by apply Nat.lt_succ_diag_r. rewrite st by apply Nat.lt_succ_diag_r. cbn [rbind pred over_items jget].
          rewrite (proj2 (nth_error_None _ _)) by (rewrite repeat_length; apply Nat.le_succ_diag_r). rewrite Nat.add_0_r. reflexivity.
      - split; [exact IH2|]. intros i f h. destruct f as [|f]; [destruct (Nat.nlt_0_r _ h)|]. cbn [over_items jget Nat.div2].
        assert (lt2 : i < i + S (S r)) by (apply Nat.lt_add_pos_r; apply Nat.lt_0_succ).
        rewrite nth_error_repeat by exact lt2. rewrite st by exact lt2. cbn [rbind]. rewrite !Nat.add_succ_r. cbn [pred]. rewrite <- Nat.add_succ_l.
        rewrite IH1 by (apply Nat.succ_lt_mono in h; eapply Nat.lt_trans; [apply Nat.lt_succ_diag_r|exact h]). rewrite Nat.add_succ_l. reflexivity. }
    intros r i f h. apply two. exact h. }
  apply (run n 0 fuel lt).
Qed.
Print Assumptions walk_deletion_misses_refuted.

Example scope_refs_case :
  let c := JMap [(chars "items", JMap [(ref, JStr (chars "#/a"))]); (chars "allOf", JList [JMap [(ref, JStr (chars "#/b"))]]); (chars "n", JAtom 1)] in
  scope_refs 30 (chars "http://x#/c") c =
    Ok (JMap [(chars "items", JMap [(ref, JStr (chars "http://x#/a"))]); (chars "allOf", JList [JMap [(ref, JStr (chars "#/b"))]]); (chars "n", JAtom 1)]) /\ size c < 30 /\ Wf c.
Proof.
  cbn zeta. split; [reflexivity|]. split; [cbn; repeat constructor|].
  assert (w : forall s, Wf (JMap [(ref, JStr s)])).
  { intros s. constructor; [repeat constructor; intros []|]. intros k v [h|[]]. injection h as <- <-. constructor. }
  constructor.
  - repeat constructor; cbn; intuition discriminate.
  - intros k v [h|[h|[h|[]]]]; injection h as <- <-; [apply w| |constructor]. constructor. intros v [<-|[]]. apply w.
Qed.
