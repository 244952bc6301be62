(** Proofs about instances. *)
From Verif Require Import Cmp_Spec Cmp_Proofs Inst_Model Inst_Spec.

Notation cache := (dict string pyval * dict string env)%type.

Lemma touch_S c f item (t : cache) :
  touch c (S f) item t =
  fold_left (fun r de => do t' <- r; if mem item (snd de) then touch c f (fst de) t' else Ok t') (ic_deps c)
    (fold_left (fun r de => do t' <- r; if mem item (snd de) then touch c f (fst de) t' else Ok t') (ic_deps c)
       (Ok (clear_item item t))).
Proof. reflexivity. Qed.

Section Touch.
  Variable c : icls.

  Definition cleared (k : string) (t : cache) : Prop := dget k (fst t) = Some VNone /\ dget k (snd t) = Some [].
  Definition same (k : string) (t t' : cache) : Prop := dget k (fst t') = dget k (fst t) /\ dget k (snd t') = dget k (snd t).
  Definition clears (P : string -> Prop) (t t' : cache) : Prop :=
    forall k, (P k -> cleared k t') /\ (cleared k t' \/ same k t t') /\ (~ P k -> same k t t').

  Lemma same_trans k t1 t2 t3 : same k t1 t2 -> same k t2 t3 -> same k t1 t3.
  Proof. unfold same. intros [a b] [a' b']. split; congruence. Qed.
  Lemma cleared_same k t t' : cleared k t -> same k t t' -> cleared k t'.
  Proof. unfold cleared, same. intros [a b] [a' b']. split; congruence. Qed.

  Lemma clears_comp P Q t1 t2 t3 : clears P t1 t2 -> clears Q t2 t3 -> clears (fun k => P k \/ Q k) t1 t3.
  Proof.
    intros h1 h2 k. destruct (h1 k) as (a1 & b1 & c1), (h2 k) as (a2 & b2 & c2). split; [|split].
    - intros [p|q]; [|apply a2; exact q]. destruct b2 as [b2|b2]; [apply b2|]. eapply cleared_same; [apply a1; exact p|exact b2].
    - destruct b2 as [b2|b2]; [left; exact b2|]. destruct b1 as [b1|b1]; [left; eapply cleared_same; eassumption|].
      right. eapply same_trans; eassumption.
    - intros n. eapply same_trans; [apply c1; tauto|apply c2; tauto].
  Qed.
  Lemma clears_weaken (P Q : string -> Prop) t t' : (forall k, P k <-> Q k) -> clears P t t' -> clears Q t t'.
  Proof. intros e h k. destruct (h k) as (a & b & d). rewrite e in a, d. tauto. Qed.
  Lemma clears_refl t : clears (fun _ => False) t t.
  Proof. intros k. split; [tauto|]. split; [right|intros _]; split; reflexivity. Qed.

  Lemma Dependent_first item k :
    Dependent c item k <-> k = item \/ exists d s, In (d, s) (ic_deps c) /\ In item s /\ Dependent c d k.
  Proof.
    split.
    - induction 1 as [|k d s h IH i j]; [left; reflexivity|]. right. destruct IH as [->|(d' & s' & i' & j' & h')].
      + exists d, s. repeat split; try assumption. constructor.
      + exists d', s'. repeat split; try assumption. econstructor; eassumption.
    - intros [->|(d & s & i & j & h)]; [constructor|]. induction h as [|k d' s' h IH i' j'].
      + econstructor; [apply dependent_refl|eassumption|eassumption].
      + econstructor; eassumption.
  Qed.

  Variable rank : string -> nat.
  Hypothesis ranked : forall d s k, In (d, s) (ic_deps c) -> In k s -> rank k < rank d.
  Hypothesis bounded : forall k, rank k < ic_limit c.

  Lemma touch_clears f : forall item t, ic_limit c <= f + rank item ->
    exists t', touch c f item t = Ok t' /\ clears (Dependent c item) t t'.
  Proof.
    induction f as [|f IH]; intros item t hf; [specialize (bounded item); simpl in hf; lia|].
    assert (loop : forall l, incl l (ic_deps c) -> forall t, exists t',
      fold_left (fun r de => do t' <- r; if mem item (snd de) then touch c f (fst de) t' else Ok t') l (Ok t) = Ok t' /\
      clears (fun k => exists d s, In (d, s) l /\ In item s /\ Dependent c d k) t t').
    { clear t. induction l as [|[d s] l IHl]; intros hl t.
      - exists t. split; [reflexivity|]. eapply clears_weaken; [|apply clears_refl]. intros k. split; [tauto|].
        intros (d & s & [] & _).
      - cbn [fold_left rbind fst snd]. destruct (mem_spec EqDec_string item s) as [i|n].
        + destruct (IH d t) as (t1 & e1 & h1).
          { specialize (ranked d s item (hl _ (or_introl eq_refl)) i). lia. }
          rewrite e1. destruct (IHl (fun x hx => hl x (or_intror hx)) t1) as (t2 & e2 & h2).
          exists t2. split; [exact e2|]. eapply clears_weaken; [|eapply clears_comp; [exact h1|exact h2]].
          intros k. cbv beta. split.
          * intros [h|(d' & s' & i' & j & h)]; [exists d, s|exists d', s']; simpl; tauto.
          * intros (d' & s' & [e|i'] & j & h); [injection e as -> ->; left; exact h|right; exists d', s'; tauto].
        + destruct (IHl (fun x hx => hl x (or_intror hx)) t) as (t2 & e2 & h2). exists t2. split; [exact e2|].
          eapply clears_weaken; [|exact h2]. intros k. split.
          * intros (d' & s' & i' & j & h). exists d', s'. simpl. tauto.
          * intros (d' & s' & [e|i'] & j & h); [injection e as -> ->; tauto|exists d', s'; tauto]. }
    rewrite touch_S.
    destruct (loop (ic_deps c) (incl_refl _) (clear_item item t)) as (t1 & e1 & h1).
    rewrite e1. destruct (loop (ic_deps c) (incl_refl _) t1) as (t2 & e2 & h2).
    exists t2. split; [exact e2|].
    assert (h0 : clears (fun k => k = item) t (clear_item item t)).
    { intros k. unfold cleared, same, clear_item. cbn [fst snd]. rewrite !dget_dset. destruct (eq_dec k item) as [->|n].
      - split; [auto|]. split; [left; auto|tauto].
      - split; [tauto|]. split; [right|intros _]; split; reflexivity. }
    eapply clears_weaken; [|eapply clears_comp; [exact h0|eapply clears_comp; [exact h1|exact h2]]].
    intros k. cbv beta. rewrite Dependent_first. tauto.
  Qed.
End Touch.

Section Cycle.
  Variable c : icls.
  (** a chain of [n] dependents starting at [item] *)
  Inductive Chain : nat -> string -> Prop :=
  | chain_0 item : Chain 0 item
  | chain_S n item d s : In (d, s) (ic_deps c) -> In item s -> Chain n d -> Chain (S n) item.

  Lemma fold_err {A} (g : A -> cache -> res cache) l x :
    fold_left (fun r de => do t' <- r; g de t') l (Err x) = Err x.
  Proof. induction l as [|a l IH]; [reflexivity|exact IH]. Qed.
  Lemma fold_ok {A} (g : A -> cache -> res cache) l : forall t t',
    fold_left (fun r de => do t' <- r; g de t') l (Ok t) = Ok t' -> forall a, In a l -> exists t1 t2, g a t1 = Ok t2.
  Proof.
    induction l as [|b l IH]; intros t t' e a []; cbn [fold_left rbind] in e.
    - subst b. destruct (g a t) as [t2|x] eqn:e2; [eauto|]. rewrite fold_err in e. discriminate.
    - destruct (g b t) as [t2|x] eqn:e2; [eapply IH; eassumption|]. rewrite fold_err in e. discriminate.
  Qed.
  Lemma touch_chain n item : Chain n item -> forall f t t', touch c f item t = Ok t' -> n < f.
  Proof.
    induction 1 as [item|n item d s i j h IH]; intros [|f] t t' e; try discriminate; [lia|].
    rewrite touch_S in e.
    match type of e with fold_left ?F _ ?init = _ => destruct init as [t1|x] eqn:e1 end.
    2:{ pose proof (fold_err (fun (de : string * list string) t' => if mem item (snd de) then touch c f (fst de) t' else Ok t') (ic_deps c) x) as e0.
        rewrite e0 in e. discriminate. }
    destruct (fold_ok (fun (de : string * list string) t' => if mem item (snd de) then touch c f (fst de) t' else Ok t') (ic_deps c) _ _ e1 _ i) as (t2 & t3 & e2).
    cbn [fst snd] in e2. destruct (mem_spec EqDec_string item s); [|tauto]. apply IH in e2. lia.
  Qed.
  Lemma Dependent_chain item k : Dependent c item k -> forall n, Chain n k -> exists m, n <= m /\ Chain m item.
  Proof.
    induction 1 as [|k d s h IH i j]; intros n hn; [exists n; split; [lia|exact hn]|].
    destruct (IH (S n)) as (m & hm & hc); [econstructor; eassumption|]. exists m. split; [lia|exact hc].
  Qed.
  Lemma cycle_chain k d s : In (d, s) (ic_deps c) -> In k s -> Dependent c d k -> forall n, exists m, n <= m /\ Chain m k.
  Proof.
    intros i j h. induction n as [|n IH]; [exists 0; split; [lia|constructor]|].
    destruct IH as (m & hm & hc). destruct (Dependent_chain d k h m hc) as (m' & hm' & hc').
    exists (S m'). split; [lia|]. econstructor; eassumption.
  Qed.
End Cycle.

Section Coherence.
  Variable c : icls.
  Variable heap : list pyval.
  Variable dom : string -> pyval -> Prop.
  Hypothesis R : Regular c heap dom.

  Notation ev := (ic_eval c heap).
  (** [x] stored for an assigned [a]: the same, or its conversion *)
  Definition Rep (k : string) (a x : pyval) : Prop := a = x \/ (literal c k a /\ forall e, ev k a e = Ok x).

  Lemma Rep_eval k a x e : Rep k a x -> ev k a e = ev k x e.
  Proof. intros [->|[l h]]; [reflexivity|]. rewrite h. symmetry.
         apply (reg_literal_stable _ _ _ R k a e x l (h e)). Qed.
  Lemma Rep_inputs k a x : Rep k a x -> inputs_of c k x = inputs_of c k a.
  Proof. intros [->|[l h]]; [reflexivity|]. unfold inputs_of. f_equal. destruct (ic_prim c k) eqn:p; [|reflexivity].
         rewrite (reg_literal_inputs _ _ _ R k a l p).
         apply (reg_literal_inputs _ _ _ R); [|exact p]. apply (reg_literal_stable _ _ _ R k a [] x l (h [])). Qed.
  Lemma Rep_dom k a x : dom k a -> Rep k a x -> dom k x.
  Proof. intros h [->|[l e]]; [exact h|]. apply (reg_eval_kind _ _ _ R k a [] x h); [intros k' v hv; discriminate hv|apply e]. Qed.
  Definition EnvOk (e : env) : Prop := dwf e /\ Kinds dom e.
  Lemma EnvOk_nil : EnvOk [].
  Proof. split; [apply dwf_nil|intros k v h; discriminate h]. Qed.
  Lemma EnvOk_dset k v e : EnvOk e -> dom k v -> EnvOk (dset k v e).
  Proof.
    intros [hw hk] hv. split; [apply dwf_dset, hw|]. intros k' v' h. rewrite dget_dset in h. destruct (eq_dec k' k) as [->|]; [injection h as <-; exact hv|].
    apply hk, h.
  Qed.
  Lemma env_eq e e' : EnvOk e -> EnvOk e' -> val_eq (VDict e) (VDict e') = true -> forall k, dget k e = dget k e'.
  Proof.
    intros [w1 k1] [w2 k2] h. apply val_eq_spec in h. inversion h as [|a b z h1 h2| | | | |d d' hl hs]; subst; [inversion h1|].
    assert (hin : incl (dkeys e) (dkeys e')).
    { intros k hk. apply dkeys_dget in hk. destruct hk as [x hx]. apply dget_In in hx. destruct (hs k x hx) as (y & hy & _). eapply dget_Some_key, hy. }
    intros k. destruct (dget k e) as [x|] eqn:hx.
    - destruct (hs k x (dget_In _ _ _ hx)) as (y & hy & heq). rewrite hy. f_equal. apply (reg_kind _ _ _ R k); [apply k1, hx|apply k2, hy|exact heq].
    - symmetry. apply dget_None. intros hk. apply dget_None in hx. apply hx.
      apply (NoDup_length_incl w1) in hin; [apply hin, hk|]. unfold dkeys. rewrite !map_length. lia.
  Qed.
  Lemma Rep_literal k a x : Rep k a x -> literal c k x -> literal c k a.
  Proof. intros [->|[l h]] lx; [exact lx|exact l]. Qed.

  Record Inv (A : dict string pyval) (s : ist) : Prop := {
    inv_heap : i_heap s = heap;
    inv_data : forall k, match dget k A, dget k (i_data s) with
                         | Some a, Some x => Rep k a x | None, None => True | _, _ => False end;
    inv_val : forall k x, dget k (i_data s) = Some x ->
                exists v, dget k (i_val s) = Some v /\
                          (v = VNone \/ exists e, dget k (i_inp s) = Some e /\ ev k x e = Ok v);
    inv_inp : forall k e, dget k (i_inp s) = Some e -> EnvOk e
  }.

  Section Ranked.
  Variable A : dict string pyval.
  Variable rank : string -> nat.
  Hypothesis ranked : forall k raw k', dget k A = Some raw -> In k' (inputs_of c k raw) -> rank k' < rank k.
  Hypothesis bounded : forall k, rank k < ic_limit c.
  Hypothesis kinds : Kinds dom A.

  Definition frame (n : nat) (s s' : ist) : Prop :=
    forall k, n <= rank k -> dget k (i_data s') = dget k (i_data s) /\ dget k (i_val s') = dget k (i_val s) /\
                             dget k (i_inp s') = dget k (i_inp s).
  Lemma frame_refl n s : frame n s s.
  Proof. intros k _. auto. Qed.
  Lemma frame_trans n s1 s2 s3 : frame n s1 s2 -> frame n s2 s3 -> frame n s1 s3.
  Proof. intros h1 h2 k hk. destruct (h1 k hk) as (a & b & d), (h2 k hk) as (a' & b' & d'). repeat split; congruence. Qed.
  Lemma frame_le n m s s' : n <= m -> frame n s s' -> frame m s s'.
  Proof. intros hn h k hk. apply h. lia. Qed.

  Lemma Inputs_app ks1 : forall ks2 e1 e2 e3, Inputs c heap A ks1 e1 e2 -> Inputs c heap A ks2 e2 e3 -> Inputs c heap A (ks1 ++ ks2) e1 e3.
  Proof.
    induction ks1 as [|k ks1 IH]; intros ks2 e1 e2 e3 h1 h2; inversion h1; subst; cbn [app]; [exact h2| |].
    - eapply inputs_ok; [eassumption|eapply IH; eassumption].
    - eapply inputs_err; [eassumption|eapply IH; eassumption].
  Qed.

  Definition good_reader (n : nat) (rd : string -> ist -> res pyval * ist) : Prop :=
    forall k s, rank k < n -> Inv A s ->
      exists r s', rd k s = (r, s') /\ Value c heap A k r /\ (forall v, r = Ok v -> dom k v) /\ Inv A s' /\ frame (S (rank k)) s s'.

  Lemma read_all_good n rd : good_reader n rd -> forall ks e s, (forall k, In k ks -> rank k < n) -> Inv A s -> EnvOk e ->
    exists e' s', read_all rd ks e s = (e', s') /\ Inputs c heap A ks e e' /\ EnvOk e' /\ Inv A s' /\ frame n s s'.
  Proof.
    intros g. induction ks as [|k ks IH]; intros e s hk hs he.
    - exists e, s. split; [reflexivity|]. split; [constructor|]. split; [exact he|]. split; [exact hs|apply frame_refl].
    - cbn [read_all]. destruct (g k s (hk k (or_introl eq_refl)) hs) as (r & s1 & e1 & v1 & d1 & i1 & f1). rewrite e1.
      destruct (IH (match r with Ok v => dset k v e | Err _ => e end) s1 (fun x hx => hk x (or_intror hx)) i1)
        as (e' & s' & e2 & v2 & o2 & i2 & f2); [destruct r as [v|x]; [apply EnvOk_dset; [exact he|apply d1; reflexivity]|exact he]|].
      exists e', s'. split; [exact e2|]. split; [|split; [exact o2|split; [exact i2|]]].
      + destruct r as [v|x]; [eapply inputs_ok; eassumption|eapply inputs_err; eassumption].
      + eapply frame_trans; [|exact f2]. eapply frame_le; [|exact f1]. specialize (hk k (or_introl eq_refl)). lia.
  Qed.

  Lemma inputs_good n rd k s a : good_reader n rd -> Inv A s -> dget k A = Some a -> rank k <= n ->
    exists e s', inputs_with c rd k s = (e, s') /\ Inputs c heap A (inputs_of c k a) [] e /\ EnvOk e /\ Inv A s' /\ frame (rank k) s s'.
  Proof.
    intros g hs ha hn. unfold inputs_with.
    assert (g' : good_reader (rank k) rd) by (intros k' s' hk' hs'; apply g; [lia|exact hs']).
    assert (hd : forall k', In k' (deps_of c k) -> rank k' < rank k).
    { intros k' hk'. apply (ranked k a _ ha). unfold inputs_of. apply in_or_app. left. exact hk'. }
    destruct (read_all_good (rank k) rd g' (deps_of c k) [] s hd hs EnvOk_nil) as (e1 & s1 & q1 & v1 & o1 & i1 & f1). rewrite q1.
    unfold inputs_of. destruct (ic_prim c k) eqn:p.
    - pose proof (inv_data _ _ i1 k) as hk. rewrite ha in hk. destruct (dget k (i_data s1)) as [x|]; [|destruct hk].
      assert (q : ic_ins c k x = ic_ins c k a).
      { apply Rep_inputs in hk. unfold inputs_of in hk. rewrite p in hk. eapply app_inv_head; exact hk. }
      rewrite q.
      assert (hi : forall k', In k' (ic_ins c k a) -> rank k' < rank k).
      { intros k' hk'. apply (ranked k a _ ha). unfold inputs_of. rewrite p. apply in_or_app. right. exact hk'. }
      destruct (read_all_good (rank k) rd g' (ic_ins c k a) e1 s1 hi i1 o1) as (e2 & s2 & q2 & v2 & o2 & i2 & f2).
      exists e2, s2. split; [exact q2|]. split; [eapply Inputs_app; eassumption|]. split; [exact o2|]. split; [exact i2|].
      eapply frame_trans; eassumption.
    - exists e1, s1. split; [reflexivity|]. split; [rewrite app_nil_r; exact v1|]. split; [exact o1|]. split; assumption.
  Qed.

  Lemma is_none_spec v : reflect (v = VNone) (is_none v).
  Proof. destruct v; constructor; congruence. Qed.

  Lemma Inv_validated s k a x e v : Inv A s -> dget k A = Some a -> dget k (i_data s) = Some x -> ev k x e = Ok v -> EnvOk e ->
    Inv A (set_inputs k e (set_validated c k v s)).
  Proof.
    intros hs ha hx hv he. pose proof (inv_data _ _ hs k) as hr. rewrite ha, hx in hr.
    assert (hd : dget k (i_data (set_validated c k v s)) =
                 Some (if ic_prim c k && ic_expr c x then x else v)).
    { unfold set_validated. rewrite hx. cbn [i_data]. destruct (ic_prim c k && ic_expr c x); [exact hx|apply dget_dset_same]. }
    assert (ho : forall k', k' <> k -> dget k' (i_data (set_validated c k v s)) = dget k' (i_data s)).
    { clear hd. intros k' n. unfold set_validated. rewrite hx. cbn [i_data]. destruct (ic_prim c k && ic_expr c x); [reflexivity|apply dget_dset_other; exact n]. }
    constructor.
    - apply (inv_heap _ _ hs).
    - intros k'. unfold set_inputs, with_cache. cbn [i_data]. destruct (eq_dec k' k) as [->|n].
      + rewrite ha, hd. destruct (ic_prim c k && ic_expr c x) eqn:l; [exact hr|]. right.
        assert (la : literal c k a) by (eapply Rep_literal; [exact hr|exact l]). split; [exact la|]. intros e'.
        rewrite (reg_literal_eval _ _ _ R k a e' e la). rewrite (Rep_eval k a x e hr). exact hv.
      + rewrite ho by exact n. apply (inv_data _ _ hs).
    - intros k' y hy. unfold set_inputs, with_cache in *. cbn [i_data i_val i_inp fst snd] in *.
      unfold set_validated. cbn [i_val i_inp]. rewrite !dget_dset. destruct (eq_dec k' k) as [->|n].
      + exists v. split; [reflexivity|]. right. exists e. split; [reflexivity|]. rewrite hd in hy. injection hy as <-.
        destruct (ic_prim c k && ic_expr c x) eqn:l; [exact hv|].
        destruct (reg_literal_stable _ _ _ R k x e v l hv) as [_ h]. apply h.
      + rewrite ho in hy by exact n. apply (inv_val _ _ hs). exact hy.
    - intros k' e' h. unfold set_inputs, with_cache in h. cbn [i_inp snd] in h. rewrite dget_dset in h. destruct (eq_dec k' k) as [->|]; [injection h as <-; exact he|].
      apply (inv_inp _ _ hs k'). exact h.
  Qed.
  Lemma frame_validated k e v s : frame (S (rank k)) s (set_inputs k e (set_validated c k v s)).
  Proof.
    intros k' hk'. assert (n : k' <> k) by (intros ->; lia). unfold set_inputs, set_validated, with_cache.
    cbn [i_data i_val i_inp fst snd]. rewrite !(dget_dset_other k k') by exact n. repeat split.
    match goal with |- dget _ (if ?b then _ else _) = _ => destruct b; [reflexivity|apply dget_dset_other; exact n] end.
  Qed.

  Lemma get_item_good f : good_reader f (get_item c f).
  Proof.
    induction f as [|f IH]; intros k s hk hs; [lia|]. cbn [get_item].
    pose proof (inv_data _ _ hs k) as hd. destruct (dget k A) as [a|] eqn:ha.
    2:{ destruct (dget k (i_data s)) as [x|] eqn:hx; [destruct hd|]. exists (Err KeyError), s. split; [reflexivity|].
        split; [apply value_missing; exact ha|]. split; [discriminate|]. split; [exact hs|apply frame_refl]. }
    destruct (dget k (i_data s)) as [x|] eqn:hx; [|destruct hd].
    destruct (inv_val _ _ hs k x hx) as (cv & hcv & hc). rewrite hcv, (reg_declared _ _ _ R), (reg_no_getter _ _ _ R).
    assert (fin : forall s1, Inv A s1 -> frame (rank k) s s1 ->
      exists r s', (let (cur, s2) := inputs_with c (get_item c f) k s1 in
                    match evaluate c k cur s2 with Err e => (Err e, s2) | Ok v => (Ok v, set_inputs k cur (set_validated c k v s2)) end) = (r, s')
        /\ Value c heap A k r /\ (forall v, r = Ok v -> dom k v) /\ Inv A s' /\ frame (S (rank k)) s s').
    { intros s1 i1 f1. destruct (inputs_good f (get_item c f) k s1 a IH i1 ha ltac:(lia)) as (e & s2 & q & v & o2 & i2 & f2).
      rewrite q. unfold evaluate. pose proof (inv_data _ _ i2 k) as hd2. rewrite ha in hd2.
      destruct (dget k (i_data s2)) as [x2|] eqn:hx2; [|destruct hd2]. rewrite (inv_heap _ _ i2).
      assert (val : Value c heap A k (ev k x2 e)) by (rewrite <- (Rep_eval k a x2 e hd2); apply value_eval; assumption).
      assert (fr : frame (S (rank k)) s s2) by (eapply frame_trans; (eapply frame_le; [|eassumption]; lia)).
      destruct (ev k x2 e) as [w|er] eqn:hw.
      - exists (Ok w). eexists. split; [reflexivity|]. split; [exact val|].
        split; [intros w' hw'; injection hw' as <-; apply (reg_eval_kind _ _ _ R k x2 e w); [exact (Rep_dom k a x2 (kinds k a ha) hd2)|apply o2|exact hw]|].
        split; [eapply Inv_validated; eassumption|].
        eapply frame_trans; [exact fr|apply frame_validated].
      - exists (Err er), s2. split; [reflexivity|]. split; [exact val|]. split; [discriminate|]. split; [exact i2|exact fr]. }
    unfold is_outdated. destruct (is_none cv && negb (is_none x)) eqn:b; [apply fin; [exact hs|apply frame_refl]|].
    destruct (inputs_good f (get_item c f) k s a IH hs ha ltac:(lia)) as (cur & s1 & q & v & o1 & i1 & f1). rewrite q.
    destruct (val_eq (VDict (or_empty (dget k (i_inp s)))) (VDict cur)) eqn:eo; cbn [negb]; [|apply fin; assumption].
    destruct (f1 k ltac:(lia)) as (d1 & d2 & d3). rewrite d2, hcv.
        assert (e : ev k a cur = Ok cv).
    { rewrite (Rep_eval k a x cur hd). destruct (is_none_spec cv) as [->|n].
      - cbn [andb] in b. destruct (is_none_spec x) as [->|]; [|discriminate]. apply (reg_none _ _ _ R).
      - destruct hc as [hc|(e & he & hev)]; [contradiction|]. rewrite he in eo. cbn [or_empty] in eo.
        rewrite <- hev. apply (reg_by_name _ _ _ R). intros y. symmetry. apply (env_eq e cur (inv_inp _ _ hs k e he) o1 eo). }
    exists (Ok cv), s1. split; [reflexivity|]. split; [rewrite <- e; apply value_eval; assumption|].
    split; [|split; [exact i1|eapply frame_le; [|exact f1]; lia]].
    intros w hw. injection hw as <-. apply (reg_eval_kind _ _ _ R k a cur cv (kinds k a ha) (proj2 o1) e).
  Qed.

  End Ranked.

  Lemma Inv_fresh A : Inv A (fresh A heap).
  Proof.
    constructor.
    - reflexivity.
    - intros k. cbn [fresh i_data]. destruct (dget k A); [left; reflexivity|exact I].
    - intros k x hx. cbn [fresh i_data i_val i_inp] in *. exists VNone. split; [|left; reflexivity].
      clear - hx. induction A as [|[k' v'] A IH]; [discriminate|]. cbn [map fst dget] in *. destruct (eq_dec k k'); [reflexivity|auto].
    - intros k e h. cbn [fresh i_inp] in h. apply dget_In, in_map_iff in h. destruct h as (y & hy & _). injection hy as _ <-. apply EnvOk_nil.
  Qed.

  Lemma Inv_set_data A B s k v : Acyclic c B -> Kinds dom A -> dom k v -> Inv A s -> dget k A <> None ->
    exists s', set_data c k v s = Ok s' /\ Inv (dset k v A) s' /\ dget k (i_data s') = Some v.
  Proof.
    intros hB hK hv hs ha. pose proof (inv_data _ _ hs k) as hd. unfold set_data. destruct (dget k A) as [a|] eqn:eA; [|contradiction].
    destruct (dget k (i_data s)) as [x|] eqn:hx; [|destruct hd].
    assert (gen : forall t, (forall k', k' <> k -> same k' (i_val s, i_inp s) t \/ cleared k' t) ->
        ((dget k (fst t) = Some VNone) \/ (v = x /\ same k (i_val s, i_inp s) t)) ->
        (forall k', same k' (i_val s, i_inp s) t \/ cleared k' t) ->
        Inv (dset k v A) (with_data (dset k v (i_data s)) (with_cache t s))).
    { intros t ht hk hi. constructor.
      - apply (inv_heap _ _ hs).
      - intros k'. cbn [with_data i_data]. rewrite !dget_dset. destruct (eq_dec k' k); [left; reflexivity|apply (inv_data _ _ hs)].
      - intros k' y hy. cbn [with_data with_cache i_data i_val i_inp] in *. rewrite dget_dset in hy. destruct (eq_dec k' k) as [->|n].
        + injection hy as <-. destruct hk as [hk|[-> hk]]; [exists VNone; split; [exact hk|left; reflexivity]|].
          destruct (inv_val _ _ hs k x hx) as (w & hw & hc). destruct hk as [q1 q2]. cbn [fst snd] in q1, q2.
          exists w. rewrite q1, q2. split; [exact hw|exact hc].
        + destruct (inv_val _ _ hs k' y hy) as (w & hw & hc). destruct (ht k' n) as [[q1 q2]|[q1 q2]]; cbn [fst snd] in q1, q2.
          * exists w. rewrite q1, q2. split; assumption.
          * exists VNone. split; [exact q1|left; reflexivity].
      - intros k' e h. cbn [with_data with_cache i_inp] in h. destruct (hi k') as [[_ q]|[_ q]]; cbn [fst snd] in q; rewrite q in h.
        + apply (inv_inp _ _ hs k'). exact h.
        + injection h as <-. apply EnvOk_nil. }
    destruct (ic_prim c k && val_eq v x) eqn:b.
    - apply andb_prop in b. destruct b as [_ b]. apply val_eq_spec in b.
      apply (reg_kind _ _ _ R k v x hv (Rep_dom k a x (hK k a eA) hd)) in b.
      eexists. split; [reflexivity|]. split; [|cbn [with_data i_data]; apply dget_dset_same].
      specialize (gen (i_val s, i_inp s)). destruct s as [d va ip hp]. apply gen.
      + intros k' n. left. split; reflexivity.
      + right. split; [exact b|split; reflexivity].
      + intros k'. left. split; reflexivity.
    - destruct hB as (rank & _ & rk & bounded).
      destruct (touch_clears c rank rk bounded (ic_limit c) k (i_val s, i_inp s) ltac:(lia)) as (t & et & ht). rewrite et.
      cbn [rbind]. eexists. split; [reflexivity|]. split; [|cbn [with_data i_data]; apply dget_dset_same]. apply gen.
      + intros k' n. destruct (ht k') as (_ & h & _). tauto.
      + left. destruct (ht k) as (h & _ & _). apply h. constructor.
      + intros k'. destruct (ht k') as (_ & h & _). tauto.
  Qed.

  Lemma Inv_forget A s k : Inv A s -> Inv (ddel k A) (forget k s).
  Proof.
    intros hs. constructor.
    - apply (inv_heap _ _ hs).
    - intros k'. cbn [forget i_data]. rewrite !dget_ddel. destruct (eq_dec k' k); [exact I|apply (inv_data _ _ hs)].
    - intros k' x hx. cbn [forget i_data i_val i_inp] in *. rewrite dget_ddel in *. destruct (eq_dec k' k) as [e|n]; [discriminate|].
      rewrite dget_ddel. destruct (eq_dec k' k); [contradiction|]. apply (inv_val _ _ hs). exact hx.
    - intros k' e h. cbn [forget i_inp] in h. rewrite dget_ddel in h. destruct (eq_dec k' k); [discriminate|]. apply (inv_inp _ _ hs k'). exact h.
  Qed.

  Lemma ddel_id_dget (A : dict string pyval) k k' : dget k A = None -> dget k' (ddel k A) = dget k' A.
  Proof. intros h. rewrite dget_ddel. destruct (eq_dec k' k) as [->|n]; congruence. Qed.
  Lemma Inv_ext (A B : dict string pyval) s : (forall k, dget k A = dget k B) -> Inv A s -> Inv B s.
  Proof. intros e h. constructor; [apply (inv_heap _ _ h)|intros k; rewrite <- e; apply (inv_data _ _ h)|apply (inv_val _ _ h)|apply (inv_inp _ _ h)]. Qed.
  Lemma Inv_absent A s k : Inv A s -> (dget k A = None <-> dget k (i_data s) = None).
  Proof. intros h. pose proof (inv_data _ _ h k) as hd. destruct (dget k A), (dget k (i_data s)); try tauto; split; congruence. Qed.

  Lemma Inv_set_item A s k v r s' : Acyclic c (if mem k (ic_readonly c) then A else if dmem k A then dset k v A else A) ->
    Kinds dom A -> Kinds dom (if mem k (ic_readonly c) then A else if dmem k A then dset k v A else A) ->
    Inv A s -> set_item c k v s = (r, s') ->
    ic_lazy c = true \/ is_ok r = true \/ refused c k A ->
    Inv (if mem k (ic_readonly c) then A else if dmem k A then dset k v A else A) s'.
  Proof.
    intros hB hA hK hs e adm. unfold set_item in e. rewrite (reg_declared _ _ _ R) in e.
    destruct (mem_spec EqDec_string k (ic_readonly c)) as [i|n]; [injection e as <- <-; exact hs|].
    unfold dmem in *. destruct (dget k A) as [a|] eqn:ha.
    2:{ unfold set_data in e. rewrite (proj1 (Inv_absent A s k hs) ha) in e. injection e as <- <-. exact hs. }
    assert (hv : dom k v) by (apply hK, dget_dset_same).
    destruct (Inv_set_data A _ s k v hB hA hv hs) as (s1 & e1 & i1 & h1); [congruence|]. rewrite e1 in e.
    destruct (ic_lazy c) eqn:lz; [injection e as <- <-; exact i1|].
    assert (ha' : dget k (dset k v A) = Some v) by apply dget_dset_same.
    destruct hB as (rank & ranked & _ & bounded).
    destruct (inputs_good (dset k v A) rank ranked (ic_limit c) (read c) k s1 v (get_item_good _ rank ranked hK _) i1 ha') as (cur & s2 & q & vv & o2 & i2 & f2).
    { specialize (bounded k). lia. }
    rewrite q in e. unfold evaluate, set_inputs, with_cache in e. cbn [i_data i_heap] in e.
    pose proof (inv_data _ _ i2 k) as hd2. rewrite ha' in hd2. destruct (dget k (i_data s2)) as [x2|] eqn:hx2; [|destruct hd2].
    rewrite (inv_heap _ _ i2) in e. destruct (ev k x2 cur) as [w|er] eqn:hw.
    - injection e as <- <-. pose proof (Inv_validated (dset k v A) s2 k v x2 cur w i2 ha' hx2 hw o2) as G.
      unfold set_inputs, set_validated, with_cache in *. cbn [i_data i_val i_inp i_heap fst snd] in *.
      rewrite (inv_heap _ _ i2) in G. exact G.
    - injection e as <- <-. destruct adm as [adm|[adm|[adm|adm]]]; [discriminate|discriminate|contradiction|congruence].
  Qed.

  Lemma history_inv A0 ops A s : History c heap dom A0 ops A s -> Acyclic c A /\ Kinds dom A /\ Inv A s.
  Proof.
    induction 1 as [hA hK|ops A s o r s' h (hA & hK & IH) e adm hB hK']; [split; [exact hA|split; [exact hK|apply Inv_fresh]]|]. split; [exact hB|]. split; [exact hK'|]. destruct o as [k|k v|k v|k|k|n v]; cbn [step assigned_after admissible] in *.
    - destruct hA as (rank & ranked & _ & bounded). destruct (get_item_good A rank ranked hK (ic_limit c) k s (bounded k) IH) as (r' & s2 & e2 & _ & _ & i2 & _). unfold read in e. rewrite e2 in e.
      injection e as <- <-. exact i2.
    - eapply Inv_set_item; eassumption.
    - unfold set_attr in e. destruct (set_item c k v s) as [r0 s0] eqn:e0.
      assert (q : s' = s0 /\ is_ok r0 = is_ok r) by (destruct r0 as [|[]]; injection e as <- <-; split; reflexivity).
      destruct q as [-> q]. eapply Inv_set_item; [exact hB|exact hK|exact hK'|exact IH|exact e0|]. rewrite q. exact adm.
    - unfold del_attr in e. rewrite (reg_declared _ _ _ R) in e. destruct (mem k (ic_required c)); [injection e as <- <-; exact IH|].
      destruct (dmem k (i_data s)) eqn:m; [injection e as <- <-; apply Inv_forget; exact IH|]. injection e as <- <-.
      eapply Inv_ext; [|exact IH]. intros k'. symmetry. apply ddel_id_dget. apply (Inv_absent A s k IH).
      unfold dmem in m. destruct (dget k (i_data s)); [discriminate|reflexivity].
    - assert (abs : dmem k (i_data s) = false -> Inv (ddel k A) s).
      { intros m. eapply Inv_ext; [|exact IH]. intros k'. symmetry. apply ddel_id_dget. apply (Inv_absent A s k IH).
        unfold dmem in m. destruct (dget k (i_data s)); [discriminate|reflexivity]. }
      unfold del_item in e. destruct (mem k (ic_translated c)); cbn [andb].
      + unfold del_attr in e. rewrite (reg_declared _ _ _ R) in e. destruct (mem k (ic_required c)); [injection e as <- <-; exact IH|].
        destruct (dmem k (i_data s)) eqn:m; [injection e as <- <-; apply Inv_forget; exact IH|]. injection e as <- <-. apply abs. reflexivity.
      + destruct (dmem k (i_data s)) eqn:m; [|injection e as <- <-; apply abs; reflexivity].
        destruct (dmem k (i_inp s)); [injection e as <- <-; apply Inv_forget; exact IH|]. injection e as <- <-.
        constructor.
        * apply (inv_heap _ _ IH).
        * intros k'. cbn [with_data i_data]. rewrite !dget_ddel. destruct (eq_dec k' k); [exact I|apply (inv_data _ _ IH)].
        * intros k' x hx. cbn [with_data i_data i_val i_inp] in *. rewrite dget_ddel in hx. destruct (eq_dec k' k); [discriminate|].
          apply (inv_val _ _ IH). exact hx.
        * apply (inv_inp _ _ IH).
    - destruct adm.
  Qed.

  Lemma read_value A0 ops A s k : History c heap dom A0 ops A s -> exists r s', read c k s = (r, s') /\ Value c heap A k r.
  Proof.
    intros h. apply history_inv in h. destruct h as [(rank & ranked & _ & bounded) [hK h]].
    destruct (get_item_good A rank ranked hK (ic_limit c) k s (bounded k) h) as (r & s' & e & v & _).
    exists r, s'. split; assumption.
  Qed.
End Coherence.

(** [Value] is functional *)
Scheme Value_mind := Minimality for Value Sort Prop
  with Inputs_mind := Minimality for Inputs Sort Prop.
Lemma Value_fun c heap A k r : Value c heap A k r -> forall r', Value c heap A k r' -> r = r'.
Proof.
  apply (Value_mind c heap A (fun k r => forall r', Value c heap A k r' -> r = r')
           (fun ks e e1 => forall e2, Inputs c heap A ks e e2 -> e1 = e2)).
  - intros k0 h r' h'. inversion h'; subst; [reflexivity|congruence].
  - intros k0 raw e h hi IH r' h'. inversion h' as [k1 h1|k1 raw1 e1 h1 hi1]; subst; [congruence|].
    rewrite h in h1. injection h1 as <-. rewrite (IH _ hi1). reflexivity.
  - intros e e2 h. inversion h. reflexivity.
  - intros k0 ks v e e' hv IHv hi IHi e2 h. inversion h; subst.
    + match goal with hv' : Value _ _ _ k0 (Ok ?v') |- _ => specialize (IHv _ hv'); injection IHv as -> end. apply IHi. assumption.
    + match goal with hv' : Value _ _ _ k0 (Err _) |- _ => specialize (IHv _ hv'); discriminate end.
  - intros k0 ks x e e' hv IHv hi IHi e2 h. inversion h; subst.
    + match goal with hv' : Value _ _ _ k0 (Ok ?v') |- _ => specialize (IHv _ hv'); discriminate end.
    + apply IHi. assumption.
Qed.
