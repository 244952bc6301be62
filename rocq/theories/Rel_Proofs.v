From Verif Require Import Base Uri_Model Rel_Model Rel_Spec Str_Proofs.
Local Open Scope list_scope.

(** * identifiers of relationships *)
Lemma owner_rid u k : (~ exists a b, u = a ++ txt "/relationships" ++ b) -> owner (rid u k) = u.
Proof.
  unfold owner, rid. induction u as [|c u IH]; intros h.
  - reflexivity.
  - cbn [app before].
    destruct (is_prefix (txt "/relationships") (c :: u ++ txt "/relationships/" ++ k)) eqn:e.
    + exfalso. apply is_prefix_spec in e. destruct e as [r e].
      (* an occurrence starting inside [u] lies inside [u]: '/' occurs in it only at the start *)
      destruct (Nat.le_gt_cases 14 (length (c :: u))) as [hl|hl].
      * apply h. exists [], (skipn 14 (c :: u)). cbn [app].
        rewrite <- (firstn_skipn 14 (c :: u)) at 1. f_equal.
        assert (e2 : firstn 14 ((c :: u) ++ txt "/relationships/" ++ k) = firstn 14 (txt "/relationships" ++ r)) by (rewrite <- e; reflexivity).
        rewrite firstn_app in e2. replace (14 - length (c :: u)) with 0 in e2 by lia. rewrite app_nil_r in e2. exact e2.
      * do 14 (destruct u as [|? u]; [first [cbn in e; discriminate e|cbn in hl; lia]|]). cbn in hl. lia.
    + f_equal. apply IH. intros (a & b & ->). apply h. exists (c :: a), b. reflexivity.
Qed.
Lemma rid_inj u k k' : rid u k = rid u k' -> k = k'.
Proof. unfold rid. intros e. apply app_inv_head in e. apply app_inv_head in e. exact e. Qed.

Lemma asked_list t k r : Asked t k r <-> In (k, r) (s_rels t ++ pointers (s_fks t)).
Proof.
  rewrite in_app_iff. unfold pointers. rewrite in_flat_map. split.
  - destruct 1 as [k r i|p f bps k r i j|p f i]; [left; exact i|right; exists (p, (f, bps)); split; [exact i|]|right; exists (p, (f, [])); split; [exact i|left; reflexivity]].
    cbn [fst snd]. destruct bps; [destruct j|exact j].
  - intros [i|((p & f & bps) & i & j)]; [apply A_declared; exact i|]. cbn [fst snd] in j. destruct bps as [|b bps].
    + destruct j as [j|[]]. injection j as <- <-. apply A_pointer. exact i.
    + eapply A_back; eassumption.
Qed.

Section P.
  Variable docs : dict name tsch.
  Variable fails : name -> option exn.
  Hypothesis oneway : OneWay docs.
  Hypothesis plain : PlainIds docs.

  Record Inv (st : rst) : Prop := {
    i_types : forall T c, dget T (types st) = Some c -> t_id c = T /\ exists t, dget T docs = Some t /\ t_pk c = s_pk t /\
       (forall k r, Asked t k r -> exists c', dget k (t_rels c) = Some c') /\
       (forall k c', dget k (t_rels c) = Some c' -> dget (rid T k) (rels st) = Some c' /\ exists r, Asked t k r /\ Describes docs T k r c');
    i_rels : forall id c, dget id (rels st) = Some c -> In (owner id) (busy st) \/ dget (owner id) (types st) <> None;
    i_busy : forall T, In T (busy st) -> dget T (types st) = None
  }.
  Record G (st st' : rst) : Prop := {
    g_types : forall T c, dget T (types st) = Some c -> dget T (types st') = Some c;
    g_rels : forall id c, dget id (rels st) = Some c -> dget id (rels st') = Some c;
    g_busy : incl (busy st) (busy st');
    g_frame : forall id, In (owner id) (busy st) -> dget id (rels st') = dget id (rels st)
  }.
  Lemma G_refl st : G st st.
  Proof. constructor; auto. intros x; auto. Qed.
  Lemma G_trans a b c : G a b -> G b c -> G a c.
  Proof.
    intros [h1 h2 h3 h4] [k1 k2 k3 k4]. constructor; auto.
    - intros x i; auto.
    - intros id i. rewrite k4 by auto. auto.
  Qed.

  Definition LdA (ld : name -> rst -> res fclass * rst) : Prop := forall u st x st', Inv st -> ld u st = (x, st') ->
    Inv st' /\ G st st' /\
    match x with Ok (FReady c) => dget u (types st') = Some c | Ok (FProxy v) => v = u | Err _ => True end.

  Lemma tick_Inv st : Inv st -> Inv (tick st).
  Proof. intros [a b c]. constructor; assumption. Qed.
  Lemma tick_G st : G st (tick st).
  Proof. constructor; auto. intros x; auto. Qed.

  Lemma new_rel_ok ld u k r t : LdA ld -> forall st x st', Asked t k r -> Inv st -> new_rel fails ld (rid u k) r st = (x, st') ->
    Inv st' /\ G st st' /\ match x with Ok c => Describes docs u k r c | Err _ => True end.
  Proof.
    intros lda st x st' ask inv e. unfold new_rel in e. destruct (r_foreign r) as [f|] eqn:ef; [|injection e as <- <-; auto using G_refl].
    destruct (ld (scope f (rid u k)) st) as [[fc|ex] st1] eqn:el.
    2: { injection e as <- <-. destruct (lda _ _ _ _ inv el) as (a & b & _). auto. }
    destruct (lda _ _ _ _ inv el) as (inv1 & g1 & hfc).
    destruct (fails (rid u k)); injection e as <- <-; [auto|].
    split; [apply tick_Inv; exact inv1|]. split; [eapply G_trans; [exact g1|apply tick_G]|].
    unfold Describes. cbn [rc_id rc_schema rc_card rc_keys rc_class].
    split; [reflexivity|]. split; [congruence|]. split; [intros f' e'; congruence|]. split; [reflexivity|].
    split; [destruct (r_keys r); [congruence|reflexivity]|].
    destruct fc as [c|v]; cbn [ref_of].
    - destruct (i_types _ inv1 _ _ hfc) as (ei & t' & et & epk & _). rewrite ei. split; [reflexivity|]. exists t'. split; [exact et|]. intros ->. exact epk.
    - split; [exact hfc|]. intros ->. reflexivity.
  Qed.

  (** the relationships of the class [u] built so far *)
  Definition J (u : name) (t : tsch) (d : dict name rcls) (st : rst) : Prop :=
    (forall id c, owner id = u -> dget id (rels st) = Some c -> exists k, id = rid u k /\ dget k d = Some c) /\
    (forall k c, dget k d = Some c -> dget (rid u k) (rels st) = Some c /\ exists r, Asked t k r /\ Describes docs u k r c).

  Lemma J_frame u t d st st' : (~ exists a b, u = a ++ txt "/relationships" ++ b) -> G st st' -> In u (busy st) -> J u t d st -> J u t d st'.
  Proof.
    intros pl g i [j1 j2]. split.
    - intros id c eo e. rewrite (g_frame _ _ g) in e by (rewrite eo; exact i). eauto.
    - intros k c e. destruct (j2 k c e) as [e1 h]. split; [apply (g_rels _ _ g); exact e1|exact h].
  Qed.

  (** as [G], but the relationships of [u] may be added *)
  Record Gx (u : name) (st st' : rst) : Prop := {
    x_types : forall T c, dget T (types st) = Some c -> dget T (types st') = Some c;
    x_rels : forall id c, dget id (rels st) = Some c -> dget id (rels st') = Some c;
    x_busy : incl (busy st) (busy st');
    x_frame : forall id, In (owner id) (busy st) -> owner id <> u -> dget id (rels st') = dget id (rels st)
  }.
  Lemma G_Gx u a b : G a b -> Gx u a b.
  Proof. intros [h1 h2 h3 h4]. constructor; auto. Qed.
  Lemma Gx_trans u a b c : Gx u a b -> Gx u b c -> Gx u a c.
  Proof.
    intros [h1 h2 h3 h4] [k1 k2 k3 k4]. constructor; auto.
    - intros x i; auto.
    - intros id i ne. rewrite k4 by auto. auto.
  Qed.

  Lemma reg_rel_Inv u k c st : (~ exists a b, u = a ++ txt "/relationships" ++ b) -> In u (busy st) -> dget (rid u k) (rels st) = None ->
    Inv st -> Inv (reg_rel (rid u k) c st) /\ Gx u st (reg_rel (rid u k) c st).
  Proof.
    intros pl i n [h1 h2 h3]. split; constructor; cbn [types busy rels reg_rel].
    - intros T c0 e. destruct (h1 T c0 e) as (a & t & b1 & b2 & b3 & b4). split; [exact a|]. exists t. repeat (split; [assumption|]).
      intros k0 c' e'. destruct (b4 k0 c' e') as [e1 e2]. split; [|exact e2]. rewrite dget_dset_other; [exact e1|]. intros h. rewrite h in e1. congruence.
    - intros id c0. rewrite dget_dset. destruct (eq_dec id (rid u k)) as [->|ne]; [|apply h2].
      intros _. left. rewrite owner_rid by exact pl. exact i.
    - exact h3.
    - auto.
    - intros id c0 e. rewrite dget_dset_other; [exact e|]. intros ->. congruence.
    - intros x; auto.
    - intros id _ ne. rewrite dget_dset_other; [reflexivity|]. intros ->. apply ne, owner_rid, pl.
  Qed.

  Lemma build_rel_ok ld u t d k r : LdA ld -> dget u docs = Some t -> forall st x st', Asked t k r -> Inv st -> In u (busy st) -> J u t d st ->
    build_rel fails ld (rid u k) r st = (x, st') ->
    Inv st' /\ Gx u st st' /\ match x with Ok c => J u t (dset k c d) st' | Err _ => True end.
  Proof.
    intros lda et st x st' ask inv i j e. pose proof (plain _ _ et) as pl. unfold build_rel in e.
    destruct (dget (rid u k) (rels st)) as [c|] eqn:en.
    - injection e as <- <-. split; [exact inv|]. split; [apply G_Gx, G_refl|]. destruct j as [j1 j2].
      destruct (j1 _ _ (owner_rid _ _ pl) en) as (k' & ek & ed). apply rid_inj in ek. subst k'.
      split.
      + intros id c' eo ec. destruct (j1 _ _ eo ec) as (k' & ek & ed'). exists k'. split; [exact ek|]. rewrite dget_dset. destruct (eq_dec k' k); congruence.
      + intros k' c' ec. rewrite dget_dset in ec. destruct (eq_dec k' k) as [->|]; [|apply j2; exact ec]. injection ec as <-. apply j2. exact ed.
    - destruct (new_rel fails ld (rid u k) r st) as [[c|ex] st1] eqn:ew.
      2: { injection e as <- <-. destruct (new_rel_ok ld u k r t lda _ _ _ ask inv ew) as (a & b & _). auto using G_Gx. }
      destruct (new_rel_ok ld u k r t lda _ _ _ ask inv ew) as (inv1 & g1 & ds).
      rewrite (oneway _ _ _ _ et ask) in e. cbn [back_populate] in e. injection e as <- <-.
      assert (i1 : In u (busy st1)) by (apply (g_busy _ _ g1); exact i).
      assert (n1 : dget (rid u k) (rels st1) = None) by (rewrite (g_frame _ _ g1); [exact en|rewrite owner_rid by exact pl; exact i]).
      destruct (reg_rel_Inv u k c st1 pl i1 n1 inv1) as [inv2 gx]. split; [exact inv2|]. split; [eapply Gx_trans; [apply G_Gx; exact g1|exact gx]|].
      destruct (J_frame u t d st st1 pl g1 i j) as [j1 j2]. split; cbn [rels reg_rel].
      + intros id c' eo ec. rewrite dget_dset in ec. destruct (eq_dec id (rid u k)) as [->|ne].
        * injection ec as <-. exists k. split; [reflexivity|apply dget_dset_same].
        * destruct (j1 _ _ eo ec) as (k' & ek & ed). exists k'. split; [exact ek|]. rewrite dget_dset_other; [exact ed|]. intros ->. congruence.
      + intros k' c' ec. rewrite dget_dset in ec. destruct (eq_dec k' k) as [->|ne].
        * injection ec as <-. split; [apply dget_dset_same|]. eauto.
        * destruct (j2 k' c' ec) as [e1 h]. split; [|exact h]. rewrite dget_dset_other; [exact e1|]. intros h'. apply rid_inj in h'. congruence.
  Qed.

  Lemma load_keys_ok ld u l : LdA ld -> forall st x st', Inv st -> load_keys ld u l st = (x, st') -> Inv st' /\ G st st'.
  Proof.
    intros lda. induction l as [|[k [[f|] bps]] l IH]; intros st x st' inv e; cbn [load_keys] in e.
    - injection e as <- <-. auto using G_refl.
    - destruct (ld (scope f (pid u k)) st) as [[fc|ex] st1] eqn:el.
      + destruct (lda _ _ _ _ inv el) as (inv1 & g1 & _). destruct (IH _ _ _ inv1 e) as [a b]. eauto using G_trans.
      + injection e as <- <-. destruct (lda _ _ _ _ inv el) as (inv1 & g1 & _). auto.
    - injection e as <- <-. auto using G_refl.
  Qed.

  Lemma add_rels_ok ld u t l : LdA ld -> dget u docs = Some t -> (forall k r, In (k, r) l -> Asked t k r) ->
    forall d st x st', Inv st -> In u (busy st) -> J u t d st -> add_rels fails ld u l d st = (x, st') ->
    Inv st' /\ Gx u st st' /\
    match x with Ok d' => J u t d' st' /\ (forall k, dget k d <> None -> dget k d' <> None) /\ (forall k r, In (k, r) l -> dget k d' <> None) | Err _ => True end.
  Proof.
    intros lda et. induction l as [|[k r] l IH]; intros hl d st x st' inv i j e; cbn [add_rels] in e.
    - injection e as <- <-. split; [exact inv|]. split; [apply G_Gx, G_refl|]. split; [exact j|]. split; [auto|intros ? ? []].
    - destruct (build_rel fails ld (rid u k) r st) as [[c|ex] st1] eqn:eb.
      2: { injection e as <- <-. destruct (build_rel_ok ld u t d k r lda et _ _ _ (hl _ _ (or_introl eq_refl)) inv i j eb) as (a & b & _). auto. }
      destruct (build_rel_ok ld u t d k r lda et _ _ _ (hl _ _ (or_introl eq_refl)) inv i j eb) as (inv1 & g1 & j1).
      destruct (IH (fun k r h => hl k r (or_intror h)) _ _ _ _ inv1 (x_busy _ _ _ g1 _ i) j1 e) as (inv2 & g2 & h).
      split; [exact inv2|]. split; [eapply Gx_trans; eassumption|]. destruct x as [d'|]; [|exact I]. destruct h as (j2 & m & al).
      split; [exact j2|]. split.
      + intros k' n. apply m. rewrite dget_dset. destruct (eq_dec k' k); [discriminate|exact n].
      + intros k' r' [h'|h']; [|eauto]. injection h' as <- <-. apply m. rewrite dget_dset_same. discriminate.
  Qed.

  Lemma mark_Inv u st : Inv st -> dget u (types st) = None -> Inv (mark u st).
  Proof.
    intros [h1 h2 h3] n. constructor; cbn [types busy rels mark]; auto.
    - intros id c e. destruct (h2 id c e); [left; right; assumption|right; assumption].
    - intros T [<-|i]; auto.
  Qed.

  Lemma load_ok n : LdA (load docs fails n).
  Proof.
    induction n as [|n IH]; intros u st x st' inv e; cbn [load] in e.
    - injection e as <- <-. auto using G_refl.
    - destruct (dget u (types st)) as [c|] eqn:et; [injection e as <- <-; auto using G_refl|].
      destruct (mem_spec (EqDec_list ascii EqDec_ascii) u (busy st)) as [ib|nb]; [injection e as <- <-; auto using G_refl|].
      destruct (dget u docs) as [t|] eqn:ed; [|injection e as <- <-; auto using G_refl].
      pose proof (plain _ _ ed) as pl.
      pose proof (mark_Inv u st inv et) as inv0.
      assert (j0 : J u t [] (mark u st)).
      { split; [|discriminate]. intros id c eo ec. exfalso. destruct (i_rels _ inv _ _ ec) as [h|h]; rewrite eo in h; contradiction. }
      assert (i0 : In u (busy (mark u st))) by (left; reflexivity).
      unfold make_class in e.
      destruct (load_keys (load docs fails n) u (s_fks t) (mark u st)) as [[[]|ex] st1] eqn:ek;
        destruct (load_keys_ok _ _ _ IH _ _ _ inv0 ek) as [inv1 g1].
      2: { injection e as <- <-. split; [exact inv1|]. split; [|exact I]. destruct g1 as [a b c d]. constructor; auto.
           - intros y iy. apply c. right. exact iy.
           - intros id io. apply d. right. exact io. }
      assert (i1 : In u (busy st1)) by (apply (g_busy _ _ g1); exact i0).
      pose proof (J_frame u t [] _ _ pl g1 i0 j0) as j1.
      destruct (add_rels fails (load docs fails n) u (s_rels t ++ pointers (s_fks t)) [] st1) as [[d|ex] st2] eqn:ea;
        destruct (add_rels_ok _ _ _ _ IH ed (fun k r h => proj2 (asked_list t k r) h) _ _ _ _ inv1 i1 j1 ea) as (inv2 & g2 & h2).
      2: { injection e as <- <-. split; [exact inv2|]. split; [|exact I].
           pose proof (Gx_trans _ _ _ _ (G_Gx u _ _ g1) g2) as [a b c d]. constructor; auto.
           - intros y iy. apply c. right. exact iy.
           - intros id io. apply d; [right; exact io|]. intros eo. apply nb. rewrite <- eo. exact io. }
      destruct h2 as (j2 & _ & al).
      pose proof (Gx_trans _ _ _ _ (G_Gx u _ _ g1) g2) as [ga gb gc gd].
      assert (gg : forall st3, types st3 = types st2 -> busy st3 = busy st2 -> rels st3 = rels st2 -> Inv st3 /\ G st st3).
      { intros st3 e1 e2 e3. split.
        - destruct inv2 as [a b c]. constructor; rewrite ?e1, ?e2, ?e3; assumption.
        - constructor; rewrite ?e1, ?e2, ?e3; auto.
          + intros y iy. apply gc. right. exact iy.
          + intros id io. apply gd; [right; exact io|]. intros eo. apply nb. rewrite <- eo. exact io. }
      destruct (fails u) eqn:ef; injection e as <- <-; [destruct (gg st2); auto|].
      set (c := {| t_obj := made st2; t_id := u; t_pk := s_pk t; t_rels := d; t_desc := _ |}).
      assert (i2 : In u (busy st2)) by (apply (x_busy _ _ _ g2); exact i1).
      pose proof (i_busy _ inv2 u i2) as nt.
      split; [constructor; cbn [types busy rels finish tick]|split; [constructor; cbn [types busy rels finish tick]|cbn [types finish]; apply dget_dset_same]].
      + intros T c0 e0. rewrite dget_dset in e0. destruct (eq_dec T u) as [->|ne].
        * injection e0 as <-. split; [reflexivity|]. exists t. split; [exact ed|]. split; [reflexivity|]. cbn [t_rels c]. split.
          -- intros k r a. apply asked_list in a. specialize (al k r a). destruct (dget k d) as [c'|]; [eauto|congruence].
          -- intros k c' ec. destruct (proj2 j2 k c' ec) as [e1 h]. auto.
        * exact (i_types _ inv2 T c0 e0).
      + intros id c0 e0. destruct (i_rels _ inv2 id c0 e0) as [h|h].
        * destruct (eq_dec (owner id) u) as [->|ne]; [right; rewrite dget_dset_same; discriminate|].
          left. apply in_in_remove; assumption.
        * right. rewrite dget_dset. destruct (eq_dec (owner id) u); [discriminate|exact h].
      + intros T iT. apply in_remove in iT. destruct iT as [iT ne]. rewrite dget_dset_other by exact ne. apply (i_busy _ inv2). exact iT.
      + intros T c0 e0. rewrite dget_dset_other; [apply ga; exact e0|]. intros ->. congruence.
      + exact gb.
      + intros y iy. apply in_in_remove; [intros ->; contradiction|]. apply gc. right. exact iy.
      + intros id io. apply gd; [right; exact io|]. intros eo. apply nb. rewrite <- eo. exact io.
  Qed.

  Lemma Inv0 : Inv rst0.
  Proof. constructor; [discriminate|discriminate|intros ? []]. Qed.
  Lemma loads_ok n us : forall st, Inv st -> Inv (loads docs fails n us st) /\ G st (loads docs fails n us st).
  Proof.
    induction us as [|u us IH]; intros st inv; cbn [loads]; [auto using G_refl|].
    destruct (load docs fails n u st) as [x st1] eqn:e. destruct (load_ok n _ _ _ _ inv e) as (inv1 & g1 & _).
    destruct (IH st1 inv1) as [a b]. cbn [snd]. eauto using G_trans.
  Qed.

  (** * every reference succeeds when the documents hang together *)
  Hypothesis closed : Closed docs.
  Hypothesis once : NamesOnce docs.
  Hypothesis fine : forall u, fails u = None.

  Definition Found (st : rst) (v : name) : Prop := In v (busy st) \/ dget v (types st) <> None.
  Definition Inv2 (st : rst) : Prop := forall T t, dget T (types st) <> None -> dget T docs = Some t -> forall v, LeadsTo T t v -> Found st v.
  Definition free (st : rst) : nat := length (filter (fun k => negb (mem k (busy st)) && negb (dmem k (types st))) (dkeys docs)).
  Definition LdB (m : nat) (ld : name -> rst -> res fclass * rst) : Prop := forall u st, Inv st -> Inv2 st -> dget u docs <> None -> free st < m ->
    exists fc st', ld u st = (Ok fc, st') /\ busy st' = busy st /\ Inv2 st' /\ Found st' u.

  Lemma found_G st st' v : G st st' -> Found st v -> Found st' v.
  Proof.
    intros g [i|n]; [left; apply (g_busy _ _ g); exact i|right]. destruct (dget v (types st)) as [c|] eqn:e; [|congruence].
    rewrite (g_types _ _ g _ _ e). discriminate.
  Qed.
  Lemma found_Gx u st st' v : Gx u st st' -> Found st v -> Found st' v.
  Proof.
    intros g [i|n]; [left; apply (x_busy _ _ _ g); exact i|right]. destruct (dget v (types st)) as [c|] eqn:e; [|congruence].
    rewrite (x_types _ _ _ g _ _ e). discriminate.
  Qed.
  Lemma free_le st st' : (forall v, Found st v -> Found st' v) -> free st' <= free st.
  Proof.
    intros h. unfold free. induction (dkeys docs) as [|k ks IH]; [auto|]. cbn [filter].
    assert (f : forall s, (negb (mem k (busy s)) && negb (dmem k (types s)) = false <-> Found s k)%bool).
    { intros s. unfold Found. destruct (mem_spec (EqDec_list ascii EqDec_ascii) k (busy s)); cbn; [tauto|].
      rewrite negb_false_iff. unfold dmem. destruct (dget k (types s)) eqn:e.
      - split; [intros _; right; congruence|reflexivity].
      - split; [discriminate|intros [h'|h']; [contradiction|congruence]]. }
    specialize (h k). destruct (negb (mem k (busy st)) && negb (dmem k (types st))) eqn:e1;
      destruct (negb (mem k (busy st')) && negb (dmem k (types st'))) eqn:e2; cbn [length]; try lia.
    apply f, h, f in e1. congruence.
  Qed.
  Lemma free_mark u st : dget u docs <> None -> dget u (types st) = None -> ~ In u (busy st) -> free (mark u st) < free st.
  Proof.
    intros nd nt nb. assert (i : In u (dkeys docs)). { destruct (dget u docs) eqn:e; [|congruence]. eapply dget_Some_key. exact e. }
    unfold free. cbn [busy types mark].
    assert (le : forall ks, length (filter (fun k => negb (mem k (u :: busy st)) && negb (dmem k (types st))) ks) <=
                            length (filter (fun k => negb (mem k (busy st)) && negb (dmem k (types st))) ks)).
    { induction ks as [|k ks IH]; [auto|]. cbn [filter]. 
      destruct (mem_spec (EqDec_list ascii EqDec_ascii) k (busy st)) as [ik|nk].
      - rewrite (proj2 (mem_In (EqDec_list ascii EqDec_ascii) k (u :: busy st))) by (right; exact ik). cbn [negb andb]. exact IH.
      - destruct (mem k (u :: busy st)); cbn [negb andb length]; destruct (dmem k (types st)); cbn [negb andb length]; lia. }
    induction (dkeys docs) as [|k ks IH]; [destruct i|]. cbn [filter]. destruct i as [->|i].
    - rewrite (proj2 (mem_In (EqDec_list ascii EqDec_ascii) u (u :: busy st))) by (left; reflexivity).
      rewrite (proj2 (mem_not_In (EqDec_list ascii EqDec_ascii) u (busy st))) by exact nb. unfold dmem. rewrite nt. cbn [negb andb length]. specialize (le ks). unfold dmem in le. lia.
    - specialize (IH i). destruct (mem_spec (EqDec_list ascii EqDec_ascii) k (busy st)) as [ik|nk].
      + rewrite (proj2 (mem_In (EqDec_list ascii EqDec_ascii) k (u :: busy st))) by (right; exact ik). cbn [negb andb]. exact IH.
      + destruct (mem k (u :: busy st)); cbn [negb andb length]; destruct (dmem k (types st)); cbn [negb andb length]; lia.
  Qed.

  Lemma load_keys_succ m ld u t l : LdA ld -> LdB m ld -> dget u docs = Some t -> (forall x, In x l -> In x (s_fks t)) ->
    forall st, Inv st -> Inv2 st -> free st < m ->
    exists st', load_keys ld u l st = (Ok tt, st') /\ busy st' = busy st /\ Inv2 st' /\
      (forall k f bps, In (k, (Some f, bps)) l -> Found st' (scope f (pid u k))).
  Proof.
    intros lda ldb et. induction l as [|[k [f bps]] l IH]; intros hl st inv inv2 fr; cbn [load_keys].
    - exists st. repeat split; auto. intros ? ? ? [].
    - destruct (closed _ _ et) as (_ & c2 & c3). destruct f as [f|]; [|destruct (c2 k None bps (hl _ (or_introl eq_refl)) eq_refl)].
      destruct (ldb (scope f (pid u k)) st inv inv2) as (fc & st1 & e1 & b1 & i1 & f1); [|exact fr|].
      { destruct (c3 (scope f (pid u k))) as [t' e']; [|congruence]. eapply L_key. apply hl. left. reflexivity. }
      rewrite e1. destruct (lda _ _ _ _ inv e1) as (inv1 & g1 & _).
      destruct (IH (fun x h => hl x (or_intror h)) st1 inv1 i1) as (st2 & e2 & b2 & i2 & f2).
      { eapply Nat.le_lt_trans; [apply free_le, (fun v => found_G _ _ v g1)|exact fr]. }
      exists st2. split; [exact e2|]. split; [congruence|]. split; [exact i2|].
      intros k' f' bps' [h|h]; [|eapply f2; exact h]. injection h as <- <- <-.
      destruct (load_keys_ok ld u l lda _ _ _ inv1 e2) as [_ g2]. eapply found_G; eassumption.
  Qed.

  Definition Followed (u : name) (t : tsch) (d : dict name rcls) (st : rst) : Prop :=
    forall k r f, dget k d <> None -> Asked t k r -> r_foreign r = Some f -> Found st (scope f (rid u k)).
  Lemma add_rels_succ m ld u t l : LdA ld -> LdB m ld -> dget u docs = Some t -> (forall k r, In (k, r) l -> Asked t k r) ->
    forall d st, Inv st -> Inv2 st -> In u (busy st) -> J u t d st -> free st < m -> Followed u t d st ->
    exists d' st', add_rels fails ld u l d st = (Ok d', st') /\ busy st' = busy st /\ Inv2 st' /\ Followed u t d' st'.
  Proof.
    intros lda ldb et. induction l as [|[k r] l IH]; intros hl d st inv inv2 i j fr fo; cbn [add_rels]; [eauto 7|].
    destruct (closed _ _ et) as (c1 & _ & c3).
    assert (ask : Asked t k r) by (apply hl; left; reflexivity).
    assert (s : exists c st1, build_rel fails ld (rid u k) r st = (Ok c, st1) /\ busy st1 = busy st /\ Inv2 st1 /\
              forall f, r_foreign r = Some f -> Found st1 (scope f (rid u k))).
    { unfold build_rel. destruct (dget (rid u k) (rels st)) as [c|] eqn:en.
      - exists c, st. repeat split; auto. intros f ef.
        destruct (proj1 j _ _ (owner_rid _ _ (plain _ _ et)) en) as (k' & ek & ed). apply rid_inj in ek. subst k'.
        eapply fo; [congruence|exact ask|exact ef].
      - unfold new_rel. destruct (r_foreign r) as [f|] eqn:ef; [|destruct (c1 _ _ ask ef)].
        destruct (ldb (scope f (rid u k)) st inv inv2) as (fc & st1 & e1 & b1 & i1 & f1); [|exact fr|].
        { destruct (c3 (scope f (rid u k))) as [t' e']; [|congruence]. eapply L_rel; eassumption. }
        rewrite e1, fine. rewrite (oneway _ _ _ _ et ask). cbn [back_populate]. eexists _, _. split; [reflexivity|]. split; [exact b1|].
        split; [exact i1|]. intros f' e'. injection e' as <-. exact f1. }
    destruct s as (c & st1 & e1 & b1 & i1 & f1). rewrite e1.
    destruct (build_rel_ok ld u t d k r lda et _ _ _ ask inv i j e1) as (inv1 & g1 & j1).
    destruct (IH (fun k r h => hl k r (or_intror h)) (dset k c d) st1 inv1 i1) as (d' & st2 & e2 & b2 & i2 & fo2); auto.
    - rewrite b1. exact i.
    - eapply Nat.le_lt_trans; [apply free_le, (fun v => found_Gx _ _ _ v g1)|exact fr].
    - intros k' r' f' n' a' ef'. rewrite dget_dset in n'. destruct (eq_dec k' k) as [->|ne].
      + rewrite (once _ _ _ _ _ et a' ask) in ef'. apply f1. exact ef'.
      + eapply found_Gx; [exact g1|]. eapply fo; eassumption.
    - exists d', st2. split; [exact e2|]. split; [congruence|]. auto.
  Qed.

  Lemma load_succ n : LdB n (load docs fails n).
  Proof.
    induction n as [|n IH]; intros u st inv inv2 nd fr; [lia|]. cbn [load].
    destruct (dget u (types st)) as [c|] eqn:et.
    { eexists _, _. split; [reflexivity|]. split; [reflexivity|]. split; [exact inv2|]. right. congruence. }
    destruct (mem_spec (EqDec_list ascii EqDec_ascii) u (busy st)) as [ib|nb].
    { eexists _, _. split; [reflexivity|]. split; [reflexivity|]. split; [exact inv2|]. left. exact ib. }
    destruct (dget u docs) as [t|] eqn:ed; [|congruence].
    pose proof (plain _ _ ed) as pl. pose proof (mark_Inv u st inv et) as inv0.
    assert (j0 : J u t [] (mark u st)).
    { split; [|discriminate]. intros id c eo ec. exfalso. destruct (i_rels _ inv _ _ ec) as [h|h]; rewrite eo in h; contradiction. }
    assert (i0 : In u (busy (mark u st))) by (left; reflexivity).
    assert (inv20 : Inv2 (mark u st)).
    { intros T t' nT eT v lv. destruct (inv2 T t' nT eT v lv) as [h|h]; [left; right; exact h|right; exact h]. }
    assert (fr0 : free (mark u st) < n). { pose proof (free_mark u st) as h. rewrite ed in h. specialize (h ltac:(discriminate) et nb). lia. }
    destruct (load_keys_succ n _ u t (s_fks t) (load_ok n) IH ed (fun x h => h) _ inv0 inv20 fr0) as (st1 & e1 & b1 & i1 & f1).
    destruct (load_keys_ok _ _ _ (load_ok n) _ _ _ inv0 e1) as [inv1 g1].
    pose proof (J_frame u t [] _ _ pl g1 i0 j0) as j1.
    destruct (add_rels_succ n _ u t (s_rels t ++ pointers (s_fks t)) (load_ok n) IH ed (fun k r h => proj2 (asked_list t k r) h) [] st1) as (d & st2 & e2 & b2 & i2 & f2); auto.
    { rewrite b1. exact i0. }
    { eapply Nat.le_lt_trans; [apply free_le, (fun v => found_G _ _ v g1)|exact fr0]. }
    { intros k r f h. cbn in h. congruence. }
    unfold make_class. rewrite e1, e2, fine.
    destruct (add_rels_ok _ _ _ _ (load_ok n) ed (fun k r h => proj2 (asked_list t k r) h) _ _ _ _ inv1 (g_busy _ _ g1 _ i0) j1 e2) as (inv2' & g2 & _ & _ & al).
    eexists _, _. split; [reflexivity|]. cbn [busy types finish tick]. rewrite b2, b1. cbn [busy mark].
    assert (er : remove (eq_dec (A := name)) u (u :: busy st) = busy st).
    { cbn [remove]. destruct (eq_dec u u) as [_|]; [|congruence]. apply notin_remove. exact nb. }
    assert (fo : forall v, Found st2 v -> Found (finish u {| t_obj := made st2; t_id := u; t_pk := s_pk t; t_rels := d;
        t_desc := fold_left (fun acc p => dset (fst p) (fst p) acc) (pointers (s_fks t)) [] |} (tick st2)) v).
    { intros v [h|h]; cbn [Found busy types finish tick]; unfold Found; cbn [busy types finish tick].
      - destruct (eq_dec v u) as [->|ne]; [right; rewrite dget_dset_same; discriminate|left; apply in_in_remove; assumption].
      - right. rewrite dget_dset. destruct (eq_dec v u); [discriminate|exact h]. }
    split; [exact er|]. split.
    - intros T t' nT eT v lv. apply fo. cbn [types finish tick] in nT. rewrite dget_dset in nT. destruct (eq_dec T u) as [->|ne].
      + rewrite ed in eT. injection eT as <-. destruct lv as [k r f a ef|p f bps ip].
        * apply (f2 k r f); [|exact a|exact ef]. apply (al k r). apply asked_list. exact a.
        * eapply found_Gx; [exact g2|]. eapply f1. exact ip.
      + eapply i2; eassumption.
    - right. cbn [types finish tick]. rewrite dget_dset_same. discriminate.
  Qed.
End P.
