From Verif Require Import Registry_Model Registry_Spec.

Section Proofs.
  Context {K V : Type} {EK : EqDec K}.
  Local Notation store := (store K V).

  Lemma set_nth_same {A} (l : list A) : forall n x y, nth_error l n = Some y -> nth_error (set_nth n x l) n = Some x.
  Proof. induction l as [|a l IH]; intros [|n] x y h; simpl in *; try discriminate; [reflexivity|]. eapply IH; eassumption. Qed.
  Lemma set_nth_other {A} (l : list A) : forall n m x, n <> m -> nth_error (set_nth n x l) m = nth_error l m.
  Proof. induction l as [|a l IH]; intros [|n] [|m] x h; simpl; try reflexivity; try congruence. apply IH. congruence. Qed.

  (** same shape: same parents everywhere *)
  Definition same_shape (st st' : store) : Prop :=
    forall r, option_map r_parents (nth_error st r) = option_map r_parents (nth_error st' r).

  Lemma same_shape_refl st : same_shape st st. Proof. intros r. reflexivity. Qed.
  Lemma same_shape_trans a b c : same_shape a b -> same_shape b c -> same_shape a c.
  Proof. intros h1 h2 r. rewrite h1. apply h2. Qed.
  Lemma same_shape_sym a b : same_shape a b -> same_shape b a.
  Proof. intros h r. symmetry. apply h. Qed.
  Lemma same_shape_set (st : store) r o t : nth_error st r = Some o ->
    same_shape st (set_nth r {| r_parents := r_parents o; r_table := t |} st).
  Proof.
    intros e q. destruct (Nat.eq_dec r q) as [->|n].
    - rewrite (set_nth_same _ _ _ _ e), e. reflexivity.
    - rewrite set_nth_other by exact n. reflexivity.
  Qed.
  Lemma same_shape_some (st st' : store) r o : same_shape st st' -> nth_error st r = Some o ->
    exists o', nth_error st' r = Some o' /\ r_parents o' = r_parents o.
  Proof. intros h e. specialize (h r). rewrite e in h. destruct (nth_error st' r) as [o'|]; [|discriminate]. injection h as h. eauto. Qed.
  Lemma same_shape_wf (st st' : store) : same_shape st st' -> store_wf st -> store_wf st'.
  Proof. intros h wf r o e p i. destruct (same_shape_some _ _ _ _ (same_shape_sym _ _ h) e) as (o' & e' & ep).
         apply (wf r o' e'). rewrite ep. exact i. Qed.
  Lemma same_shape_anc (st st' : store) r q : same_shape st st' -> Ancestor st r q -> Ancestor st' r q.
  Proof. intros h. induction 1 as [|p o q a IH e i]; [constructor|].
         destruct (same_shape_some _ _ _ _ h e) as (o' & e' & ep). eapply A_up; [exact IH|exact e'|]. rewrite ep. exact i. Qed.

  Lemma reg_get_set (st : store) r o t q k : nth_error st r = Some o ->
    reg_get (set_nth r {| r_parents := r_parents o; r_table := t |} st) q k =
    if eq_dec q r then dget k t else reg_get st q k.
  Proof.
    intros e. unfold reg_get. destruct (eq_dec q r) as [->|n].
    - rewrite (set_nth_same _ _ _ _ e). reflexivity.
    - rewrite set_nth_other by congruence. reflexivity.
  Qed.

  Lemma Ancestor_first (st : store) r o p q : nth_error st r = Some o -> In p (r_parents o) -> Ancestor st p q -> Ancestor st r q.
  Proof. intros e i. induction 1 as [|p' o' q' a IH e' i']; [eapply A_up; [constructor|exact e|exact i]|]. eapply A_up; eassumption. Qed.
  Lemma Ancestor_inv (st : store) r o q : nth_error st r = Some o -> Ancestor st r q ->
    q = r \/ exists p, In p (r_parents o) /\ Ancestor st p q.
  Proof.
    intros e. induction 1 as [|p o' q a IH e' i]; [auto|]. right. destruct IH as [->|(p0 & i0 & a0)].
    - rewrite e in e'. injection e' as <-. exists q. split; [exact i|constructor].
    - exists p0. split; [exact i0|]. eapply A_up; eassumption.
  Qed.

  Lemma wf_parent_valid (st : store) r o p : store_wf st -> nth_error st r = Some o -> In p (r_parents o) -> exists o', nth_error st p = Some o'.
  Proof.
    intros wf e i. assert (lt := wf r o e p i). destruct (nth_error st p) as [o'|] eqn:ep; [eauto|].
    apply nth_error_None in ep. assert (h : nth_error st r <> None) by congruence. apply nth_error_Some in h. lia.
  Qed.

  Definition RegPost (st st' : store) (rs : list nat) (k : K) (v : V) : Prop :=
    same_shape st st' /\
    (forall q, (exists r, In r rs /\ Ancestor st r q) -> reg_get st' q k = Some v) /\
    (forall q, reg_get st' q k = Some v \/ reg_get st' q k = reg_get st q k) /\
    (forall q k', k' <> k \/ ~ (exists r, In r rs /\ Ancestor st r q) -> reg_get st' q k' = reg_get st q k').

  Lemma reg_register_ok : forall fuel (st : store) r k v, store_wf st -> r < fuel -> r < length st ->
    exists st', reg_register fuel st r k v = Ok st' /\ RegPost st st' [r] k v.
  Proof.
    induction fuel as [|f IH]; intros st r k v wf lt ltl; [lia|]. cbn [reg_register].
    destruct (nth_error st r) as [o|] eqn:e; [|apply nth_error_None in e; lia].
    set (st1 := set_nth r {| r_parents := r_parents o; r_table := dset k v (r_table o) |} st).
    assert (sh1 : same_shape st st1) by (apply same_shape_set; exact e).
    assert (loop : forall ps st2, same_shape st st2 -> (forall p, In p ps -> In p (r_parents o)) ->
      exists st', fold_left (fun acc p => do st' <- acc; reg_register f st' p k v) ps (Ok st2) = Ok st' /\ RegPost st2 st' ps k v).
    { induction ps as [|p ps IHps]; intros st2 sh sub.
      - exists st2. split; [reflexivity|]. split; [apply same_shape_refl|]. split; [intros q (r0 & [] & _)|].
        split; [right; reflexivity|reflexivity].
      - assert (ip : In p (r_parents o)) by (apply sub; left; reflexivity).
        assert (ltp := wf r o e p ip).
        destruct (wf_parent_valid st r o p wf e ip) as (op & ep).
        destruct (same_shape_some _ _ _ _ sh ep) as (op2 & ep2 & _).
        destruct (IH st2 p k v) as (st3 & e3 & sh3 & hit3 & mono3 & miss3).
        + eapply same_shape_wf; eassumption.
        + lia.
        + apply nth_error_Some. congruence.
        + destruct (IHps st3) as (st' & e' & sh' & hit' & mono' & miss').
          * eapply same_shape_trans; eassumption.
          * intros x i. apply sub. right. exact i.
          * exists st'. cbn [fold_left rbind]. rewrite e3. split; [exact e'|]. split; [eapply same_shape_trans; eassumption|].
            split; [|split].
            -- intros q (r0 & [<-|i0] & a).
               ++ destruct (mono' q) as [h|h]; [exact h|]. rewrite h. apply hit3. exists p. split; [left; reflexivity|exact a].
               ++ apply hit'. exists r0. split; [exact i0|]. eapply same_shape_anc; eassumption.
            -- intros q. destruct (mono' q) as [h|h]; [left; exact h|]. destruct (mono3 q) as [h3|h3]; [left|right]; congruence.
            -- intros q k' hq. rewrite miss', miss3; [reflexivity| |].
               ++ destruct hq as [hq|hq]; [left; exact hq|right]. intros (r0 & [<-|[]] & a). apply hq. exists p. split; [left; reflexivity|exact a].
               ++ destruct hq as [hq|hq]; [left; exact hq|right]. intros (r0 & i0 & a). apply hq. exists r0. split; [right; exact i0|].
                  eapply same_shape_anc; [apply same_shape_sym; exact sh3|exact a]. }
    destruct (loop (r_parents o) st1 sh1 (fun _ h => h)) as (st' & e' & sh' & hit' & mono' & miss').
    exists st'. split; [exact e'|].
    assert (g1 : forall q k', reg_get st1 q k' = if eq_dec q r then dget k' (dset k v (r_table o)) else reg_get st q k').
    { intros q k'. apply reg_get_set. exact e. }
    split; [eapply same_shape_trans; eassumption|]. split; [|split].
    - intros q (r0 & [<-|[]] & a). destruct (Ancestor_inv _ _ _ _ e a) as [->|(p & ip & ap)].
      + destruct (mono' r) as [h|h]; [exact h|]. rewrite h, g1. destruct (eq_dec r r); [apply dget_dset_same|congruence].
      + apply hit'. exists p. split; [exact ip|]. eapply same_shape_anc; eassumption.
    - intros q. destruct (mono' q) as [h|h]; [left; exact h|]. rewrite h, g1.
      destruct (eq_dec q r); [left; apply dget_dset_same|right; reflexivity].
    - intros q k' hq. rewrite miss'.
      + rewrite g1. destruct (eq_dec q r) as [->|n]; [|reflexivity]. destruct hq as [hq|hq].
        * rewrite dget_dset_other by exact hq. unfold reg_get. rewrite e. reflexivity.
        * destruct hq. exists r. split; [left; reflexivity|constructor].
      + destruct hq as [hq|hq]; [left; exact hq|right]. intros (p & ip & ap). apply hq. exists r. split; [left; reflexivity|].
        eapply Ancestor_first; [exact e|exact ip|]. eapply same_shape_anc; [apply same_shape_sym; exact sh1|exact ap].
  Qed.

  Lemma register_post (st : store) r k v : store_wf st -> r < length st ->
    exists st', register st r k v = Ok st' /\
      (forall q, Ancestor st r q -> reg_get st' q k = Some v) /\
      (forall q k', k' <> k \/ ~ Ancestor st r q -> reg_get st' q k' = reg_get st q k') /\
      (forall q, option_map r_parents (nth_error st' q) = option_map r_parents (nth_error st q)).
  Proof.
    intros wf lt. destruct (reg_register_ok (S r) st r k v wf (Nat.lt_succ_diag_r r) lt) as (st' & e & sh & hit & mono & miss).
    exists st'. split; [exact e|]. split; [|split].
    - intros q a. apply hit. exists r. split; [left; reflexivity|exact a].
    - intros q k' h. apply miss. destruct h as [h|h]; [left; exact h|right]. intros (r0 & [<-|[]] & a). exact (h a).
    - intros q. symmetry. apply sh.
  Qed.

  (** ** unregister *)
  Lemma Route_Ancestor (st : store) r l q : Route st r l q -> Ancestor st r q.
  Proof. induction 1 as [r|r o i p l q e ei h IH]; [constructor|]. eapply Ancestor_first; [exact e|eapply nth_error_In; exact ei|exact IH]. Qed.
  Lemma Route_snoc (st : store) r l p o i q : Route st r l p -> nth_error st p = Some o -> nth_error (r_parents o) i = Some q ->
    Route st r (l ++ [i]) q.
  Proof. induction 1 as [r|r o' i' p' l q' e ei h IH]; intros e1 e2; simpl; [econstructor; [exact e1|exact e2|constructor]|].
         econstructor; eauto. Qed.
  Lemma Ancestor_Route (st : store) r q : Ancestor st r q -> exists l, Route st r l q.
  Proof. induction 1 as [|p o q a (l & h) e i]; [exists []; constructor|]. apply In_nth_error in i. destruct i as (n & en).
         exists (l ++ [n]). eapply Route_snoc; eassumption. Qed.
  Lemma same_shape_route (st st' : store) r l q : same_shape st st' -> Route st r l q -> Route st' r l q.
  Proof. intros sh. induction 1 as [r|r o i p l q e ei h IH]; [constructor|].
         destruct (same_shape_some _ _ _ _ sh e) as (o' & e' & ep). econstructor; [exact e'|rewrite ep; exact ei|exact IH]. Qed.
  Lemma wf_route_le (st : store) r l q : store_wf st -> Route st r l q -> q <= r.
  Proof. intros wf. induction 1 as [r|r o i p l q e ei h IH]; [lia|]. apply nth_error_In in ei. specialize (wf r o e p ei). lia. Qed.
  Lemma wf_anc_le (st : store) r q : store_wf st -> Ancestor st r q -> q <= r.
  Proof. intros wf a. destruct (Ancestor_Route _ _ _ a) as (l & h). eapply wf_route_le; eassumption. Qed.

  (** reachability from a list of starting registries, by position *)
  Definition RouteFrom (st : store) (ps : list nat) (l : list nat) (q : nat) : Prop :=
    exists i p l', l = i :: l' /\ nth_error ps i = Some p /\ Route st p l' q.
  Definition TreeFrom (st : store) (ps : list nat) : Prop :=
    forall q l1 l2, RouteFrom st ps l1 q -> RouteFrom st ps l2 q -> l1 = l2.
  Definition Reach (st : store) (ps : list nat) (q : nat) : Prop := exists p, In p ps /\ Ancestor st p q.

  Lemma TreeFrom_cons (st : store) p ps : TreeFrom st (p :: ps) <->
    TreeLike st p /\ TreeFrom st ps /\ (forall q, Ancestor st p q -> ~ Reach st ps q).
  Proof.
    split.
    - intros h. split; [|split].
      + intros q l1 l2 h1 h2. assert (x : 0 :: l1 = 0 :: l2); [|congruence].
        apply (h q); [exists 0, p, l1|exists 0, p, l2]; auto.
      + intros q l1 l2 (i1 & p1 & l1' & -> & e1 & h1) (i2 & p2 & l2' & -> & e2 & h2).
        assert (x : S i1 :: l1' = S i2 :: l2'); [|congruence].
        apply (h q); [exists (S i1), p1, l1'|exists (S i2), p2, l2']; auto.
      + intros q a (p2 & i2 & a2). destruct (Ancestor_Route _ _ _ a) as (l & hl). destruct (Ancestor_Route _ _ _ a2) as (l2 & hl2).
        apply In_nth_error in i2. destruct i2 as (n & en).
        assert (x : 0 :: l = S n :: l2); [|discriminate]. apply (h q); [exists 0, p, l|exists (S n), p2, l2]; auto.
    - intros (tp & tps & dj) q l1 l2 (i1 & p1 & l1' & -> & e1 & h1) (i2 & p2 & l2' & -> & e2 & h2).
      destruct i1 as [|i1], i2 as [|i2]; simpl in e1, e2.
      + injection e1 as <-. injection e2 as <-. f_equal. apply (tp q); assumption.
      + injection e1 as <-. exfalso. apply (dj q (Route_Ancestor _ _ _ _ h1)). exists p2. split; [eapply nth_error_In; exact e2|].
        eapply Route_Ancestor; exact h2.
      + injection e2 as <-. exfalso. apply (dj q (Route_Ancestor _ _ _ _ h2)). exists p1. split; [eapply nth_error_In; exact e1|].
        eapply Route_Ancestor; exact h1.
      + assert (x : i1 :: l1' = i2 :: l2'); [|congruence]. apply (tps q); [exists i1, p1, l1'|exists i2, p2, l2']; auto.
  Qed.
  Lemma TreeLike_parents (st : store) r o : store_wf st -> nth_error st r = Some o -> (TreeLike st r <-> TreeFrom st (r_parents o)).
  Proof.
    intros wf e. split.
    - intros h q l1 l2 (i1 & p1 & l1' & -> & e1 & h1) (i2 & p2 & l2' & -> & e2 & h2). apply (h q); econstructor; eassumption.
    - intros h q l1 l2 h1 h2.
      assert (no : forall i p l, nth_error (r_parents o) i = Some p -> Route st p l r -> False).
      { intros i p l ei hr. apply nth_error_In in ei. specialize (wf_route_le _ _ _ _ wf hr). specialize (wf r o e p ei). lia. }
      inversion h1 as [|? o1 i1 p1 l1' ? e1 ei1 hr1]; inversion h2 as [|? o2 i2 p2 l2' ? e2 ei2 hr2]; subst; try reflexivity.
      + rewrite e in e2. injection e2 as <-. destruct (no _ _ _ ei2 hr2).
      + rewrite e in e1. injection e1 as <-. destruct (no _ _ _ ei1 hr1).
      + rewrite e in e1, e2. injection e1 as <-. injection e2 as <-.
        apply (h q); [exists i1, p1, l1'|exists i2, p2, l2']; auto.
  Qed.
  Lemma same_shape_tree (st st' : store) ps : same_shape st st' -> TreeFrom st ps -> TreeFrom st' ps.
  Proof.
    intros sh h q l1 l2 (i1 & p1 & l1' & -> & e1 & h1) (i2 & p2 & l2' & -> & e2 & h2). apply (h q).
    - exists i1, p1, l1'. repeat split; auto. eapply same_shape_route; [apply same_shape_sym|]; eassumption.
    - exists i2, p2, l2'. repeat split; auto. eapply same_shape_route; [apply same_shape_sym|]; eassumption.
  Qed.
  Lemma same_shape_treelike (st st' : store) r : same_shape st st' -> TreeLike st r -> TreeLike st' r.
  Proof. intros sh h q l1 l2 h1 h2. apply same_shape_sym in sh. apply (h q); eapply same_shape_route; eassumption. Qed.
  Lemma same_shape_reach (st st' : store) ps q : same_shape st st' -> Reach st ps q -> Reach st' ps q.
  Proof. intros sh (p & i & a). exists p. split; [exact i|]. eapply same_shape_anc; eassumption. Qed.

  (** effect of deleting [k] from exactly the registries satisfying [P] *)
  Definition Deleted (st st' : store) (P : nat -> Prop) (k : K) : Prop :=
    same_shape st st' /\ (forall q, P q -> reg_get st' q k = None) /\
    (forall q k', k' <> k \/ ~ P q -> reg_get st' q k' = reg_get st q k') /\
    (forall q, reg_get st' q k = None \/ reg_get st' q k = reg_get st q k).

  Definition Unreg (call : store -> nat -> store * res unit) (k : K) (bound : nat) : Prop :=
    forall st r, store_wf st -> r < bound -> r < length st ->
      let out := call st r in
      same_shape st (fst out) /\ (snd out = Ok tt \/ snd out = Err KeyError) /\
      (snd out = Ok tt <-> TreeLike st r /\ forall q, Ancestor st r q -> reg_get st q k <> None) /\
      (snd out = Ok tt -> Deleted st (fst out) (Ancestor st r) k).

  Definition unreg_loop (f : nat) (k : K) :=
    fun (acc : store * res unit) p => match acc with (st', Ok _) => reg_unregister f st' p k | (st', Err e) => (st', Err e) end.
  Lemma unreg_loop_err f k ps : forall st e, fold_left (unreg_loop f k) ps (st, Err e) = (st, Err e).
  Proof. induction ps as [|p ps IH]; intros st e; simpl; [reflexivity|apply IH]. Qed.

  Lemma unreg_fold f k bound : Unreg (fun st r => reg_unregister f st r k) k bound ->
    forall ps st, store_wf st -> (forall p, In p ps -> p < bound /\ p < length st) ->
    let out := fold_left (unreg_loop f k) ps (st, Ok tt) in
    same_shape st (fst out) /\ (snd out = Ok tt \/ snd out = Err KeyError) /\
    (snd out = Ok tt <-> TreeFrom st ps /\ forall q, Reach st ps q -> reg_get st q k <> None) /\
    (snd out = Ok tt -> Deleted st (fst out) (Reach st ps) k).
  Proof.
    intros U. induction ps as [|p ps IH]; intros st wf hb out; subst out.
    - cbn [fold_left fst snd]. split; [apply same_shape_refl|]. split; [left; reflexivity|]. split.
      + split; [|reflexivity]. intros _. split; [intros q l1 l2 (i & p & l' & _ & e & _); destruct i; discriminate|].
        intros q (p & [] & _).
      + intros _. split; [apply same_shape_refl|]. split; [intros q (p & [] & _)|]. split; [reflexivity|right; reflexivity].
    - cbn [fold_left]. change (unreg_loop f k (st, Ok tt) p) with (reg_unregister f st p k).
      destruct (hb p (or_introl eq_refl)) as (hp & hl).
      specialize (U st p wf hp hl). cbv beta zeta in U. destruct (reg_unregister f st p k) as (st1, r1). cbn [fst snd] in U.
      destruct U as (sh1 & cases1 & iff1 & del1).
      assert (len1 : forall x, x < length st -> x < length st1).
      { intros x lx. apply nth_error_Some. apply nth_error_Some in lx. destruct (nth_error st x) as [o|] eqn:e; [|congruence].
        destruct (same_shape_some _ _ _ _ sh1 e) as (o' & e' & _). intros h. rewrite e' in h. discriminate. }
      destruct r1 as [[]|e].
      + specialize (IH st1 (same_shape_wf _ _ sh1 wf)). cbn zeta in IH.
        destruct IH as (sh2 & cases2 & iff2 & del2). { intros x i. destruct (hb x (or_intror i)). split; auto. }
        destruct (del1 eq_refl) as (_ & gone1 & keep1 & mono1). destruct (proj1 iff1 eq_refl) as (tp & held1).
        split; [eapply same_shape_trans; eassumption|]. split; [exact cases2|].
        assert (dj : TreeFrom st ps /\ (forall q, Ancestor st p q -> ~ Reach st ps q) /\ (forall q, Reach st ps q -> reg_get st q k <> None)
                     <-> TreeFrom st1 ps /\ (forall q, Reach st1 ps q -> reg_get st1 q k <> None)).
        { split.
          - intros (t & d & h). split; [eapply same_shape_tree; eassumption|]. intros q rq.
            apply (same_shape_reach _ st) in rq; [|apply same_shape_sym; exact sh1].
            rewrite keep1; [apply h; exact rq|]. right. intros a. exact (d q a rq).
          - intros (t & h). split; [eapply same_shape_tree; [apply same_shape_sym; exact sh1|exact t]|]. split.
            + intros q a rq. apply (same_shape_reach st st1) in rq; [|exact sh1]. apply (h q rq). apply gone1. exact a.
            + intros q rq hn. apply (same_shape_reach st st1) in rq; [|exact sh1]. apply (h q rq).
              destruct (mono1 q) as [m|m]; congruence. }
        split.
        * rewrite iff2, <- dj, TreeFrom_cons. split.
          -- intros (t & d & h). split; [auto|]. intros q (x & [<-|ix] & a); [apply held1; exact a|]. apply h. exists x. auto.
          -- intros ((_ & t & d) & h). split; [exact t|]. split; [exact d|]. intros q (x & ix & a). apply h. exists x. split; [right; exact ix|exact a].
        * intros ok. destruct (del2 ok) as (_ & gone2 & keep2 & mono2).
          split; [eapply same_shape_trans; eassumption|]. split; [|split].
          -- intros q (x & [<-|ix] & a).
             ++ destruct (mono2 q) as [m|m]; [exact m|]. rewrite m. apply gone1. exact a.
             ++ apply gone2. exists x. split; [exact ix|]. eapply same_shape_anc; eassumption.
          -- intros q k' hq. rewrite keep2, keep1; [reflexivity| |].
             ++ destruct hq as [hq|hq]; [left; exact hq|right]. intros a. apply hq. exists p. split; [left; reflexivity|exact a].
             ++ destruct hq as [hq|hq]; [left; exact hq|right]. intros (x & ix & a). apply hq. exists x. split; [right; exact ix|].
                eapply same_shape_anc; [apply same_shape_sym; exact sh1|exact a].
          -- intros q. destruct (mono2 q) as [m|m]; [left; exact m|]. destruct (mono1 q) as [m1|m1]; [left|right]; congruence.
      + rewrite unreg_loop_err. cbn [fst snd]. split; [exact sh1|]. destruct cases1 as [c|c]; [discriminate|].
        split; [right; exact c|]. split; [|discriminate].
        split; [discriminate|]. intros (t & h). apply TreeFrom_cons in t. destruct iff1 as [_ iff1]. exfalso.
        assert (x : Err e = Ok tt); [|discriminate]. apply iff1. split; [tauto|]. intros q a. apply h. exists p. split; [left; reflexivity|exact a].
  Qed.

  Lemma reg_unregister_char k : forall fuel, Unreg (fun st r => reg_unregister fuel st r k) k fuel.
  Proof.
    induction fuel as [|f IH]; intros st r wf lt ltl out; subst out; [lia|]. cbv beta. cbn [reg_unregister].
    destruct (nth_error st r) as [o|] eqn:e; [|apply nth_error_None in e; lia].
    destruct (dmem k (r_table o)) eqn:ek.
    2:{ cbn [fst snd]. split; [apply same_shape_refl|]. split; [right; reflexivity|]. split; [|discriminate].
        split; [discriminate|]. intros (_ & h). exfalso. apply (h r); [constructor|]. unfold reg_get. rewrite e.
        unfold dmem in ek. destruct (dget k (r_table o)); congruence. }
    set (st1 := set_nth r {| r_parents := r_parents o; r_table := ddel k (r_table o) |} st).
    assert (sh1 : same_shape st st1) by (apply same_shape_set; exact e).
    assert (g1 : forall q k', reg_get st1 q k' = if eq_dec q r then dget k' (ddel k (r_table o)) else reg_get st q k').
    { intros q k'. apply reg_get_set. exact e. }
    assert (hk : reg_get st r k <> None).
    { unfold reg_get. rewrite e. unfold dmem in ek. destruct (dget k (r_table o)); congruence. }
    assert (hps : forall p, In p (r_parents o) -> p < f /\ p < length st1).
    { intros p ip. assert (lp := wf r o e p ip). split; [lia|]. destruct (wf_parent_valid _ _ _ _ wf e ip) as (op & ep).
      destruct (same_shape_some _ _ _ _ sh1 ep) as (o' & e' & _). apply nth_error_Some. intros h. rewrite e' in h. discriminate. }
    assert (L := unreg_fold f k f IH (r_parents o) st1 (same_shape_wf _ _ sh1 wf) hps). cbn zeta in L.
    unfold unreg_loop in L.
    destruct L as (sh2 & cases2 & iff2 & del2).
    assert (notr : forall p, In p (r_parents o) -> ~ Ancestor st p r).
    { intros p ip a. apply (wf_anc_le _ _ _ wf) in a. specialize (wf r o e p ip). lia. }
    assert (other : forall q, Reach st (r_parents o) q -> reg_get st1 q k = reg_get st q k).
    { intros q (p & ip & a). rewrite g1. destruct (eq_dec q r) as [->|n]; [destruct (notr p ip a)|reflexivity]. }
    split; [eapply same_shape_trans; eassumption|]. split; [exact cases2|]. split.
    - rewrite iff2. rewrite (TreeLike_parents st r o wf e). split.
      + intros (t & h). split; [eapply same_shape_tree; [apply same_shape_sym; exact sh1|exact t]|].
        intros q a. destruct (Ancestor_inv _ _ _ _ e a) as [->|(p & ip & ap)]; [exact hk|].
        assert (rq : Reach st (r_parents o) q) by (exists p; auto). rewrite <- (other q rq). apply h.
        eapply same_shape_reach; eassumption.
      + intros (t & h). split; [eapply same_shape_tree; eassumption|]. intros q rq.
        apply (same_shape_reach _ st) in rq; [|apply same_shape_sym; exact sh1]. rewrite (other q rq).
        destruct rq as (p & ip & ap). apply h. eapply Ancestor_first; eassumption.
    - intros ok. destruct (del2 ok) as (_ & gone2 & keep2 & mono2).
      split; [eapply same_shape_trans; eassumption|]. split; [|split].
      + intros q a. destruct (Ancestor_inv _ _ _ _ e a) as [->|(p & ip & ap)].
        * destruct (mono2 r) as [m|m]; [exact m|]. rewrite m, g1. destruct (eq_dec r r); [|congruence]. rewrite dget_ddel.
          destruct (eq_dec k k); congruence.
        * apply gone2. exists p. split; [exact ip|]. eapply same_shape_anc; eassumption.
      + intros q k' hq. rewrite keep2.
        * rewrite g1. destruct (eq_dec q r) as [->|n]; [|reflexivity]. destruct hq as [hq|hq].
          -- rewrite dget_ddel. destruct (eq_dec k' k); [congruence|]. unfold reg_get. rewrite e. reflexivity.
          -- destruct hq. constructor.
        * destruct hq as [hq|hq]; [left; exact hq|right]. intros (p & ip & ap). apply hq. eapply Ancestor_first; [exact e|exact ip|].
          eapply same_shape_anc; [apply same_shape_sym; exact sh1|exact ap].
      + intros q. destruct (mono2 q) as [m|m]; [left; exact m|]. rewrite m, g1. destruct (eq_dec q r) as [->|n]; [left|right; reflexivity].
        rewrite dget_ddel. destruct (eq_dec k k); congruence.
  Qed.

  Lemma unregister_char (st : store) r k : store_wf st -> r < length st ->
    let st' := fst (unregister st r k) in let out := snd (unregister st r k) in
    (out = Ok tt \/ out = Err KeyError) /\
    (out = Ok tt <-> TreeLike st r /\ forall q, Ancestor st r q -> reg_get st q k <> None) /\
    (out = Ok tt -> (forall q, Ancestor st r q -> reg_get st' q k = None) /\
                    (forall q k', k' <> k \/ ~ Ancestor st r q -> reg_get st' q k' = reg_get st q k')).
  Proof.
    intros wf lt. destruct (reg_unregister_char k (S r) st r wf (Nat.lt_succ_diag_r r) lt) as (sh & cases & iff & del).
    split; [exact cases|]. split; [exact iff|]. intros ok. destruct (del ok) as (_ & g & kp & _). split; assumption.
  Qed.

  (** ** histories *)
  Lemma reg_new_get (st : store) ps q k : reg_get (reg_new st ps) q k = reg_get st q k.
  Proof.
    unfold reg_get, reg_new. destruct (Nat.lt_ge_cases q (length st)) as [lt|ge].
    - rewrite nth_error_app1 by exact lt. reflexivity.
    - rewrite nth_error_app2 by exact ge. replace (nth_error st q) with (@None (reg K V)) by (symmetry; apply nth_error_None; exact ge).
      destruct (q - length st) as [|n]; simpl; [reflexivity|]. destruct n; reflexivity.
  Qed.
  Lemma reg_new_wf (st : store) ps : store_wf st -> (forall p, In p ps -> p < length st) -> store_wf (reg_new st ps).
  Proof.
    intros wf h r o e p ip. unfold reg_new in e. destruct (Nat.lt_ge_cases r (length st)) as [lt|ge].
    - rewrite nth_error_app1 in e by exact lt. exact (wf r o e p ip).
    - rewrite nth_error_app2 in e by exact ge. destruct (r - length st) as [|n] eqn:en; simpl in e; [|destruct n; discriminate].
      injection e as <-. specialize (h p ip). lia.
  Qed.
  Lemma reg_new_anc (st : store) ps r q : r < length st -> store_wf st -> (Ancestor (reg_new st ps) r q <-> Ancestor st r q).
  Proof.
    intros lt wf. split.
    - induction 1 as [|p o q a IH e i]; [constructor|]. assert (lp := wf_anc_le _ _ _ wf IH).
      unfold reg_new in e. rewrite nth_error_app1 in e by lia. eapply A_up; eassumption.
    - induction 1 as [|p o q a IH e i]; [constructor|]. eapply A_up; [exact IH| |exact i]. unfold reg_new.
      rewrite nth_error_app1; [exact e|]. apply nth_error_Some. congruence.
  Qed.

  Lemma store_wf_nil : store_wf (@nil (reg K V)).
  Proof. intros r o e. destruct r; discriminate. Qed.

  Lemma length_shape (a b : store) : same_shape a b -> length a = length b.
  Proof.
    intros h. destruct (Nat.lt_trichotomy (length a) (length b)) as [l|[l|l]]; [|exact l|].
    - exfalso. apply nth_error_Some in l. specialize (h (length a)). replace (nth_error a (length a)) with (@None (reg K V)) in h
        by (symmetry; apply nth_error_None; lia). destruct (nth_error b (length a)); [discriminate|congruence].
    - exfalso. apply nth_error_Some in l. specialize (h (length b)). replace (nth_error b (length b)) with (@None (reg K V)) in h
        by (symmetry; apply nth_error_None; lia). destruct (nth_error a (length b)); [discriminate|congruence].
  Qed.

  Definition Hist (os : list reg_op) (st : store) : Prop :=
    store_wf st /\ (forall r k v, In (RReg r k v) os -> r < length st) /\
    forall q k, (forall v, reg_get st q k = Some v -> LastRegistered st os q k v) /\
                (reg_get st q k = None -> forall r v, In (RReg r k v) os -> ~ Ancestor st r q).

  Lemma reg_run_hist_gen : forall os pre st, Hist pre st -> ValidOps (length st) os ->
    exists st', fold_left reg_step os (Ok st) = Ok st' /\ Hist (pre ++ os) st'.
  Proof.
    induction os as [|o os IH]; intros pre st h val; simpl.
    - rewrite app_nil_r. eauto.
    - destruct h as (wf & ex & hist). destruct o as [ps|r k v]; simpl in *.
      + destruct val as (hp & val). destruct (IH (pre ++ [RNew ps]) (reg_new st ps)) as (st' & e & h').
        * assert (wf' : store_wf (reg_new st ps)) by (apply reg_new_wf; assumption).
          split; [exact wf'|]. split.
          -- intros r k v i. apply in_app_iff in i. unfold reg_new. rewrite app_length. destruct i as [i|[i|[]]]; [|discriminate].
             specialize (ex _ _ _ i). simpl. lia.
          -- intros q k. destruct (hist q k) as (hs & hn). rewrite reg_new_get. split.
             ++ intros v e. destruct (hs v e) as (o1 & r & o2 & -> & a & l). exists o1, r, (o2 ++ [RNew ps]).
                rewrite <- app_assoc. split; [reflexivity|]. split.
                ** apply reg_new_anc; [|exact wf|exact a]. apply (ex r k v). apply in_app_iff. right. left. reflexivity.
                ** intros r' v' i. apply in_app_iff in i. destruct i as [i|[i|[]]]; [|discriminate]. intros a'.
                   apply (l _ _ i). eapply reg_new_anc; [|exact wf|exact a']. apply (ex r' k v'). apply in_app_iff. right. right. exact i.
             ++ intros e r v i. apply in_app_iff in i. destruct i as [i|[i|[]]]; [|discriminate]. intros a.
                apply (hn e r v i). eapply reg_new_anc; [exact (ex _ _ _ i)|exact wf|exact a].
        * unfold reg_new. rewrite app_length. simpl. rewrite Nat.add_1_r. exact val.
        * rewrite <- app_assoc in h'. eauto.
      + destruct val as (lt & val).
        destruct (reg_register_ok (S r) st r k v wf (Nat.lt_succ_diag_r r) lt) as (st1 & e1 & sh & hit & mono & miss).
        unfold register. rewrite e1.
        assert (A1 : forall x y, Ancestor st1 x y -> Ancestor st x y) by (intros x y; apply same_shape_anc, same_shape_sym, sh).
        assert (A2 : forall x y, Ancestor st x y -> Ancestor st1 x y) by (intros x y; apply same_shape_anc, sh).
        assert (len : length st1 = length st) by (symmetry; apply length_shape; exact sh).
        destruct (IH (pre ++ [RReg r k v]) st1) as (st' & e & h').
        * split; [eapply same_shape_wf; eassumption|]. split.
          -- intros r' k' v' i. rewrite len. apply in_app_iff in i. destruct i as [i|[i|[]]]; [exact (ex _ _ _ i)|]. injection i as -> -> ->. exact lt.
          -- intros q k'. destruct (eq_dec k' k) as [->|nk].
             ++ destruct (hist q k) as (hs & hn).
                assert (dec : Ancestor st r q \/ ~ Ancestor st r q).
                { clear - wf. revert q. induction r as [r IHr] using lt_wf_ind. intros q.
                  destruct (Nat.eq_dec q r) as [->|n]; [left; constructor|].
                  destruct (nth_error st r) as [o|] eqn:eo.
                  - assert (dd : (exists p, In p (r_parents o) /\ Ancestor st p q) \/ ~ (exists p, In p (r_parents o) /\ Ancestor st p q)).
                    { assert (all : forall p, In p (r_parents o) -> p < r) by (intros p; apply (wf r o eo)).
                      revert all. generalize (r_parents o). induction l as [|p l IHl]; intros all; [right; intros (p & [] & _)|].
                      destruct (IHr p (all p (or_introl eq_refl)) q) as [a|na]; [left; exists p; split; [left; reflexivity|exact a]|].
                      destruct IHl as [(p' & i' & a')|nb]; [intros x i; apply all; right; exact i|left; exists p'; split; [right; exact i'|exact a']|].
                      right. intros (p' & [<-|i'] & a'); [exact (na a')|]. apply nb. eauto. }
                    destruct dd as [(p & ip & a)|nd]; [left; eapply Ancestor_first; eassumption|].
                    right. intros a. destruct (Ancestor_inv _ _ _ _ eo a) as [->|x]; [congruence|exact (nd x)].
                  - right. intros a. apply n. clear n. induction a as [|p o q a IHa e i]; [reflexivity|]. subst p. congruence. }
                destruct dec as [a|na].
                ** assert (g : reg_get st1 q k = Some v) by (apply hit; exists r; split; [left; reflexivity|exact a]).
                   rewrite g. split; [|discriminate]. intros v' ev. injection ev as <-. exists pre, r, []. repeat split; auto.
                ** assert (g : reg_get st1 q k = reg_get st q k).
                   { apply miss. right. intros (x & [<-|[]] & a). exact (na a). }
                   rewrite g. split.
                   --- intros v' ev. destruct (hs v' ev) as (o1 & r' & o2 & -> & a & l). exists o1, r', (o2 ++ [RReg r k v]).
                       rewrite <- app_assoc. split; [reflexivity|]. split; [auto|]. intros r2 v2 i. apply in_app_iff in i.
                       destruct i as [i|[i|[]]]; [intros a2; exact (l _ _ i (A1 _ _ a2))|]. injection i as <- <-. intros a2. exact (na (A1 _ _ a2)).
                   --- intros en r2 v2 i. apply in_app_iff in i. destruct i as [i|[i|[]]]; [intros a2; exact (hn en _ _ i (A1 _ _ a2))|].
                       injection i as <- <-. intros a2. exact (na (A1 _ _ a2)).
             ++ assert (g : reg_get st1 q k' = reg_get st q k') by (apply miss; left; exact nk). rewrite g.
                destruct (hist q k') as (hs & hn). split.
                ** intros v' ev. destruct (hs v' ev) as (o1 & r' & o2 & -> & a & l). exists o1, r', (o2 ++ [RReg r k v]).
                   rewrite <- app_assoc. split; [reflexivity|]. split; [auto|]. intros r2 v2 i. apply in_app_iff in i.
                   destruct i as [i|[i|[]]]; [intros a2; exact (l _ _ i (A1 _ _ a2))|]. injection i as _ i _. congruence.
                ** intros en r2 v2 i. apply in_app_iff in i. destruct i as [i|[i|[]]]; [intros a2; exact (hn en _ _ i (A1 _ _ a2))|].
                   injection i as _ i _. congruence.
        * rewrite len. exact val.
        * rewrite <- app_assoc in h'. eauto.
  Qed.

  Lemma reg_run_hist os : ValidOps 0 os -> exists st, reg_run os = Ok st /\ Hist os st.
  Proof.
    intros val. apply (reg_run_hist_gen os [] []); [|exact val]. split; [apply store_wf_nil|]. split; [intros r k v []|].
    intros q k. split; [|intros _ r v []]. unfold reg_get. destruct q; discriminate.
  Qed.
End Proofs.
