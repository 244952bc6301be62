From Verif Require Import Nc_Model Nc_Spec.

Lemma find_trans_none n k : (forall t r, In (t, r) (nm_trans n) -> k <> t /\ k <> r) ->
  find (fun p => beq k (snd p) || beq k (fst p)) (nm_trans n) = None.
Proof.
  intros h. destruct (find _ (nm_trans n)) as [[t r]|] eqn:ef; [|reflexivity]. apply find_some in ef. destruct ef as [it b]. cbn [fst snd] in b.
  destruct (h t r it) as [h1 h2]. apply orb_prop in b. destruct b as [b|b]; apply beq_true in b; congruence.
Qed.
Lemma refers_raw n name raw : Refers n name raw -> exists trans, raw_trans n name = Some (raw, trans).
Proof.
  intros h. unfold raw_trans. destruct h as [i|t raw ni i e u|raw ni nt e|raw ni nt e e2|ni nt e e2 a].
  - rewrite (proj2 (mem_In _ _ _) i). eauto.
  - rewrite (proj2 (mem_not_In _ _ _) ni). destruct (find _ (nm_trans n)) as [[t' r']|] eqn:ef.
    + apply find_some in ef. destruct ef as [it b]. cbn [fst snd] in b. exists t'. f_equal. f_equal. apply (u t' r' it).
      apply orb_prop in b. destruct b as [b|b]; apply beq_true in b; auto.
    + pose proof (find_none _ _ ef (t, raw) i) as b. cbn [fst snd] in b. apply orb_false_iff in b. destruct b as [b1 b2].
      apply beq_false in b1, b2. destruct e; congruence.
  - rewrite (proj2 (mem_not_In _ _ _) ni), (find_trans_none n name nt), e. eauto.
  - rewrite (proj2 (mem_not_In _ _ _) ni), (find_trans_none n name nt), e, e2. eauto.
  - rewrite (proj2 (mem_not_In _ _ _) ni), (find_trans_none n name nt), e, e2, a. eauto.
Qed.

Section Cache.
  Variable w : classes.
  Notation mro := (mro w). Notation look_up := (look_up w). Notation run := (run w).

  Lemma run_snoc h st c k : run st (h ++ [(c, k)]) = snd (look_up (run st h) c k).
  Proof. revert st. induction h as [|[c' k'] h IH]; intros st; [reflexivity|]. cbn. apply IH. Qed.

  (** [look_up] with its parts named *)
  Lemma look_up_spec st c name : exists o st1, In o (mro c) /\
    (owner w st c = Some o /\ st1 = st \/ owner w st c = None /\ o = c /\ st1 = dset c [] st) /\
    dget o st1 <> None /\
    look_up st c name =
      match dget name (match dget o st1 with Some m => m | None => [] end) with
      | Some r => (Some r, st1)
      | None => match raw_trans (cl_names w c) name with
                | Some r => (Some r, dset o (dset name r (match dget o st1 with Some m => m | None => [] end)) st1)
                | None => (None, st1)
                end
      end.
  Proof.
    unfold Nc_Model.look_up. destruct (owner w st c) as [o|] eqn:e.
    - exists o, st. pose proof e as e'. unfold owner in e'. apply find_some in e'. destruct e' as [i m]. split; [exact i|]. split; [auto|]. split; [|reflexivity].
      unfold dmem in m. destruct (dget o st); [discriminate|discriminate].
    - exists c, (dset c [] st). split; [left; reflexivity|]. split; [auto|]. split; [rewrite dget_dset_same; discriminate|reflexivity].
  Qed.

  (** every entry was computed by a class that has the dictionary's class among its own *)
  Definition Inv (h : list (nat * string)) (st : caches) : Prop :=
    forall o m name r, dget o st = Some m -> dget name m = Some r ->
      exists c, In (c, name) h /\ In o (mro c) /\ raw_trans (cl_names w c) name = Some r.
  Lemma inv_run h : Inv h (run [] h).
  Proof.
    induction h as [|[c k] h IH] using rev_ind; [intros o m name r e; discriminate|]. rewrite run_snoc.
    assert (IH' : Inv (h ++ [(c, k)]) (run [] h)).
    { intros o m name r e1 e2. destruct (IH o m name r e1 e2) as (c' & i & j & q). exists c'. rewrite in_app_iff. auto. }
    destruct (look_up_spec (run [] h) c k) as (o & st1 & io & ow & ne & ->).
    assert (I1 : Inv (h ++ [(c, k)]) st1).
    { destruct ow as [[_ ->]|(_ & -> & ->)]; [exact IH'|]. intros o m name r e1 e2. rewrite dget_dset in e1. destruct (eq_dec o c); [injection e1 as <-; discriminate|].
      apply (IH' o m name r e1 e2). }
    destruct (dget k (match dget o st1 with Some m => m | None => [] end)) as [r|] eqn:ek; [exact I1|].
    destruct (raw_trans (cl_names w c) k) as [r|] eqn:er; [|exact I1].
    intros o' m name r' e1 e2. cbn [snd] in e1. rewrite dget_dset in e1. destruct (eq_dec o' o) as [->|no]; [|apply (I1 o' m name r' e1 e2)].
    injection e1 as <-. rewrite dget_dset in e2. destruct (eq_dec name k) as [->|nk].
    - injection e2 as <-. exists c. rewrite in_app_iff. cbn. auto.
    - destruct (dget o st1) as [m|] eqn:em; [|discriminate]. apply (I1 o m name r' em e2).
  Qed.

  Lemma origin h c name r : fst (look_up (run [] h) c name) = Some r ->
    raw_trans (cl_names w c) name = Some r \/
    exists c', In (c', name) h /\ Related w c c' /\ raw_trans (cl_names w c') name = Some r.
  Proof.
    destruct (look_up_spec (run [] h) c name) as (o & st1 & io & ow & ne & ->).
    destruct (dget name (match dget o st1 with Some m => m | None => [] end)) as [r'|] eqn:ek.
    - cbn. intros [= <-]. right. destruct ow as [[_ ->]|(_ & -> & ->)].
      + destruct (dget o (run [] h)) as [m|] eqn:em; [|discriminate]. destruct (inv_run h o m name r' em ek) as (c' & i & j & q).
        exists c'. split; [exact i|]. split; [|exact q]. exists o. cbn in io, j. split; [destruct io as [<-|]; auto|destruct j as [<-|]; auto].
      + rewrite dget_dset_same in ek. discriminate.
    - destruct (raw_trans (cl_names w c) name) as [r'|] eqn:er; cbn; [auto|discriminate].
  Qed.
  Lemma nowhere h c name : fst (look_up (run [] h) c name) = None -> raw_trans (cl_names w c) name = None.
  Proof.
    destruct (look_up_spec (run [] h) c name) as (o & st1 & io & ow & ne & ->).
    destruct (dget name (match dget o st1 with Some m => m | None => [] end)); [discriminate|]. destruct (raw_trans (cl_names w c) name); [discriminate|reflexivity].
  Qed.

  (** dictionaries are never dropped, nor are their entries *)
  Lemma grows st c k o m name r : dget o st = Some m -> dget name m = Some r ->
    exists m', dget o (snd (look_up st c k)) = Some m' /\ dget name m' = Some r.
  Proof.
    intros e1 e2. destruct (look_up_spec st c k) as (o' & st1 & io & ow & ne & ->).
    assert (e1' : dget o st1 = Some m).
    { destruct ow as [[_ ->]|(on & -> & ->)]; [exact e1|]. rewrite dget_dset_other; [exact e1|]. intros ->. unfold owner in on.
      pose proof (find_none _ _ on c (or_introl eq_refl)) as f. cbn in f. unfold dmem in f. rewrite e1 in f. discriminate. }
    destruct (dget k (match dget o' st1 with Some m => m | None => [] end)) as [r'|] eqn:ek; [eauto|].
    destruct (raw_trans (cl_names w c) k) as [r'|]; [|eauto]. cbn [snd].
    destruct (eq_dec o o') as [->|no]; [|rewrite dget_dset_other by congruence; eauto]. rewrite e1' in *. rewrite dget_dset_same. eexists. split; [reflexivity|].
    rewrite dget_dset. destruct (eq_dec name k) as [->|]; [congruence|exact e2].
  Qed.
  Lemma kept st c k o : dmem o st = true -> dmem o (snd (look_up st c k)) = true.
  Proof.
    intros m. destruct (look_up_spec st c k) as (o' & st1 & io & ow & ne & ->).
    assert (m1 : dmem o st1 = true).
    { destruct ow as [[_ ->]|(on & -> & ->)]; [exact m|]. unfold dmem in *. rewrite dget_dset. destruct (eq_dec o c); [reflexivity|exact m]. }
    destruct (dget k (match dget o' st1 with Some m => m | None => [] end)); [exact m1|]. destruct (raw_trans (cl_names w c) k); [|exact m1].
    cbn [snd]. unfold dmem in *. rewrite dget_dset. destruct (eq_dec o o'); [reflexivity|exact m1].
  Qed.
  (** a new dictionary belongs to a class that had none among its own *)
  Lemma made st c k x : dmem x st = false -> dmem x (snd (look_up st c k)) = true -> x = c /\ owner w st c = None.
  Proof.
    intros m. destruct (look_up_spec st c k) as (o' & st1 & io & ow & ne & ->).
    assert (m1 : dmem x st1 = true -> x = c /\ owner w st c = None).
    { destruct ow as [[_ ->]|(on & -> & ->)]; [congruence|]. unfold dmem in *. rewrite dget_dset. destruct (eq_dec x c); [auto|]. intros h. rewrite h in m. discriminate. }
    destruct (dget k (match dget o' st1 with Some m => m | None => [] end)); [exact m1|]. destruct (raw_trans (cl_names w c) k); [|exact m1].
    cbn [snd]. unfold dmem in *. rewrite dget_dset. destruct (eq_dec x o') as [->|]; [|exact m1]. intros _. apply m1. destruct (dget o' st1); congruence.
  Qed.

  Lemma find_split {A} (f : A -> bool) l x : find f l = Some x -> exists pre post, l = pre ++ x :: post /\ f x = true /\ forall y, In y pre -> f y = false.
  Proof.
    induction l as [|y l IH]; cbn; [discriminate|]. destruct (f y) eqn:e.
    - intros [= <-]. exists [], l. split; [reflexivity|]. split; [exact e|intros y' []].
    - intros h. destruct (IH h) as (pre & post & -> & hx & hy). exists (y :: pre), post. split; [reflexivity|]. split; [exact hx|]. intros y' [<-|i]; [exact e|apply hy; exact i].
  Qed.
  Lemma find_first {A} (f : A -> bool) pre x post : f x = true -> (forall y, In y pre -> f y = false) -> find f (pre ++ x :: post) = Some x.
  Proof. intros hx hy. induction pre as [|y pre IH]; cbn; [rewrite hx; reflexivity|]. rewrite (hy y (or_introl eq_refl)). apply IH. intros z i. apply hy. right. exact i. Qed.

  Lemma owner_kept (S : SingleInheritance w) st c o c' k : owner w st c = Some o -> owner w (snd (look_up st c' k)) c = Some o.
  Proof.
    intros e. unfold owner in *. destruct (find_split _ _ _ e) as (pre & post & em & hx & hy). cbn in hx, hy. rewrite em. apply find_first; [apply kept; exact hx|].
    intros y i. destruct (dmem y (snd (look_up st c' k))) eqn:ey; [|reflexivity]. destruct (made st c' k y (hy y i) ey) as [-> on].
    exfalso. assert (io : In o (mro c')).
    { destruct pre as [|c0 pre]; [destruct i|]. cbn [app] in em. unfold Nc_Model.mro in em. injection em as <- em. destruct i as [<-|i].
      - right. rewrite em. apply in_app_iff. right. left. reflexivity.
      - right. apply in_split in i as (p1 & p2 & ->). rewrite <- app_assoc in em. cbn [app] in em. apply (S c p1 c' o (p2 ++ o :: post) em). apply in_app_iff. right. left. reflexivity. }
    unfold owner in on. rewrite (find_none _ _ on o io) in hx. discriminate.
  Qed.
  Lemma answered st c name r : fst (look_up st c name) = Some r ->
    exists o m, owner w (snd (look_up st c name)) c = Some o /\ dget o (snd (look_up st c name)) = Some m /\ dget name m = Some r.
  Proof.
    intros e. destruct (look_up_spec st c name) as (o & st1 & io & ow & ne & eq). rewrite eq in *.
    assert (o1 : owner w st1 c = Some o).
    { destruct ow as [[on ->]|(on & -> & ->)]; [exact on|]. unfold owner. cbn. unfold dmem. rewrite dget_dset_same. reflexivity. }
    assert (o2 : forall m, owner w (dset o m st1) c = Some o).
    { intros m. unfold owner in *. destruct (find_split _ _ _ o1) as (pre & post & em & hx & hy). rewrite em. apply find_first.
      - cbn. unfold dmem. rewrite dget_dset_same. reflexivity.
      - intros y i. cbn in *. unfold dmem in *. rewrite dget_dset. destruct (eq_dec y o) as [->|]; [rewrite (hy o i) in hx; discriminate|apply hy; exact i]. }
    destruct (dget o st1) as [m|] eqn:em; [|congruence].
    destruct (dget name m) as [r'|] eqn:ek; cbn in *.
    - exists o, m. rewrite em. repeat split; congruence.
    - destruct (raw_trans (cl_names w c) name) as [r'|]; cbn in *; [|discriminate]. exists o, (dset name r' m). rewrite !dget_dset_same. repeat split; [apply o2|congruence].
  Qed.
  Lemma answer st c name o m r : owner w st c = Some o -> dget o st = Some m -> dget name m = Some r -> fst (look_up st c name) = Some r.
  Proof. intros h1 h2 h3. unfold Nc_Model.look_up. rewrite h1, h2, h3. reflexivity. Qed.
  Lemma stable (S : SingleInheritance w) h st c name o m r : owner w st c = Some o -> dget o st = Some m -> dget name m = Some r ->
    fst (look_up (run st h) c name) = Some r.
  Proof.
    revert st m. induction h as [|[c' k] h IH]; intros st m h1 h2 h3; [apply (answer st c name o m r h1 h2 h3)|]. cbn.
    destruct (grows st c' k o m name r h2 h3) as (m' & e1 & e2). apply (IH _ m' (owner_kept S st c o c' k h1) e1 e2).
  Qed.
  Lemma run_app st h h' : run st (h ++ h') = run (run st h) h'.
  Proof. revert st. induction h as [|[c k] h IH]; intros st; [reflexivity|]. cbn. apply IH. Qed.
End Cache.
