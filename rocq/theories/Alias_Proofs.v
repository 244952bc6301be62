(** Proofs about aliases. *)
From Coq Require Import Permutation.
From Verif Require Import Alias_Model Alias_Spec.

Lemma py_neg_spec v w : py_neg v = Ok w <-> Opposite v w.
Proof.
  split.
  - destruct v as [|[]|z| | | | |]; cbn [py_neg]; try discriminate; intros h; injection h as <-; constructor. lia.
  - intros h. destruct h as [a b h| |]; cbn [py_neg]; [|reflexivity|reflexivity]. do 2 f_equal. lia.
Qed.
Lemma py_neg_err v : py_neg v = Err TypeError <-> forall w, ~ Opposite v w.
Proof.
  split.
  - intros h w o. apply py_neg_spec in o. congruence.
  - intros h. destruct (py_neg v) as [w|x] eqn:e; [apply py_neg_spec in e; destruct (h w e)|]. destruct v; cbn [py_neg] in e; congruence.
Qed.
Lemma dget_dupdate upd : forall (d : dict string pyval) p, dwf upd ->
  dget p (dupdate d upd) = match dget p upd with Some w => Some w | None => dget p d end.
Proof.
  unfold dupdate. induction upd as [|[k w] upd IH]; intros d p wf; [reflexivity|].
  inversion wf as [|? ? ni nd]; subst. cbn [fold_left fst snd dget]. rewrite IH by exact nd. destruct (eq_dec p k) as [->|ne].
  - rewrite (proj2 (dget_None k upd) ni). apply dget_dset_same.
  - rewrite dget_dset_other by exact ne. reflexivity.
Qed.

Section Rename.
  Variable f : pyval -> res pyval.

  Lemma pop_aliases_ok t : forall value acc value' acc', dwf t -> (forall k1 k2 r, In (k1, r) t -> In (k2, r) t -> k1 = k2) -> dwf acc ->
    pop_aliases f t value acc = Ok (value', acc') ->
    dwf acc' /\
    (forall p, dget p value' = if mem p (dkeys t) then None else dget p value) /\
    (forall p, (forall a, In (a, p) t -> dget a value = None) -> dget p acc' = dget p acc) /\
    (forall a p v, In (a, p) t -> dget a value = Some v -> exists w, f v = Ok w /\ dget p acc' = Some w).
  Proof.
    induction t as [|[k1 k2] t IH]; intros value acc value' acc' wf inj wa e; cbn [pop_aliases] in e.
    - injection e as <- <-. repeat split; try assumption; try reflexivity. intros a p v [].
    - inversion wf as [|? ? ni nd]; subst. assert (inj' : forall a b r, In (a, r) t -> In (b, r) t -> a = b).
      { intros a b r ia ib. apply (inj a b r); right; assumption. }
      assert (nk : forall r, ~ In (k1, r) t) by (intros r i; apply ni; apply (in_map fst) in i; exact i).
      destruct (dget k1 value) as [v1|] eqn:e1.
      + destruct (f v1) as [w1|x] eqn:ef; [|discriminate]. cbn [rbind] in e.
        destruct (IH (ddel k1 value) (dset k2 w1 acc) value' acc' nd inj' (dwf_dset k2 w1 acc wa) e) as (h0 & h1 & h2 & h3).
        split; [exact h0|]. split; [|split].
        * intros p. rewrite h1. cbn [dkeys map fst mem]. fold (dkeys t). rewrite dget_ddel.
          destruct (eq_dec p k1); cbn [orb]; destruct (mem p (dkeys t)); reflexivity.
        * intros p hp. rewrite h2.
          -- apply dget_dset_other. intros ->. specialize (hp k1 (or_introl eq_refl)). congruence.
          -- intros a i. rewrite dget_ddel. destruct (eq_dec a k1); [reflexivity|]. apply hp. right. exact i.
        * intros a p v [i|i] hv.
          -- injection i as <- <-. rewrite e1 in hv. injection hv as <-. exists w1. split; [exact ef|]. rewrite h2; [apply dget_dset_same|].
             intros a i. destruct (nk k2). rewrite <- (inj a k1 k2 (or_intror i) (or_introl eq_refl)). exact i.
          -- apply (h3 a p v i). rewrite dget_ddel. destruct (eq_dec a k1) as [->|]; [destruct (nk _ i)|exact hv].
      + destruct (IH value acc value' acc' nd inj' wa e) as (h0 & h1 & h2 & h3). split; [exact h0|]. split; [|split].
        * intros p. rewrite h1. cbn [dkeys map fst mem]. fold (dkeys t). destruct (eq_dec p k1) as [->|]; cbn [orb].
          -- destruct (mem k1 (dkeys t)); [reflexivity|exact e1].
          -- reflexivity.
        * intros p hp. apply h2. intros a i. apply hp. right. exact i.
        * intros a p v [i|i] hv; [injection i as <- <-; congruence|]. exact (h3 a p v i hv).
  Qed.

  Lemma pop_aliases_err t x : forall value acc, dwf t -> 
    (pop_aliases f t value acc = Err x -> exists a p v, In (a, p) t /\ dget a value = Some v /\ f v = Err x).
  Proof.
    induction t as [|[k1 k2] t IH]; intros value acc wf e; cbn [pop_aliases] in e; [discriminate|].
    inversion wf as [|? ? ni nd]; subst. destruct (dget k1 value) as [v1|] eqn:e1.
    - destruct (f v1) as [w1|y] eqn:ef; cbn [rbind] in e.
      + destruct (IH _ _ nd e) as (a & p & v & i & hv & hf). exists a, p, v. split; [right; exact i|]. split; [|exact hf].
        rewrite dget_ddel in hv. destruct (eq_dec a k1); [discriminate|exact hv].
      + injection e as <-. exists k1, k2, v1. split; [left; reflexivity|]. split; assumption.
    - destruct (IH _ _ nd e) as (a & p & v & i & hv & hf). exists a, p, v. split; [right; exact i|]. split; assumption.
  Qed.

  Record renames (t : dict string string) (value r : dict string pyval) : Prop := {
    rn_gone : forall p, In p (dkeys t) -> dget p r = None;
    rn_other : forall p, ~ In p (dkeys t) -> (forall a, In (a, p) t -> dget a value = None) -> dget p r = dget p value;
    rn_moved : forall a p v, In (a, p) t -> dget a value = Some v -> exists w, f v = Ok w /\ dget p r = Some w
  }.
  Lemma rename_ok t value r : dwf t -> (forall k1 k2 r, In (k1, r) t -> In (k2, r) t -> k1 = k2) ->
    (forall a p, In (a, p) t -> ~ In p (dkeys t)) -> rename_aliases f t value = Ok r -> renames t value r.
  Proof.
    intros wf inj tg e. unfold rename_aliases in e. destruct (pop_aliases f t value []) as [[value' acc']|x] eqn:ep; [|discriminate].
    cbn [rbind fst snd] in e. injection e as <-.
    destruct (pop_aliases_ok t value [] value' acc' wf inj (dwf_nil _ _) ep) as (h0 & h1 & h2 & h3). constructor.
    - intros p i. rewrite dget_dupdate by exact h0. rewrite h2.
      + cbn [dget]. rewrite h1, (proj2 (mem_In _ _ _) i). reflexivity.
      + intros a ia. destruct (tg a p ia i).
    - intros p ni hp. rewrite dget_dupdate by exact h0. rewrite h2 by exact hp. cbn [dget]. rewrite h1, (proj2 (mem_not_In _ _ _) ni). reflexivity.
    - intros a p v i hv. destruct (h3 a p v i hv) as (w & ef & ea). exists w. split; [exact ef|]. rewrite dget_dupdate by exact h0.
      rewrite ea. reflexivity.
  Qed.
  Lemma rename_err t value x : dwf t -> rename_aliases f t value = Err x -> exists a p v, In (a, p) t /\ dget a value = Some v /\ f v = Err x.
  Proof.
    intros wf e. unfold rename_aliases in e. destruct (pop_aliases f t value []) as [[value' acc']|y] eqn:ep; [discriminate|].
    cbn [rbind] in e. injection e as <-. eapply pop_aliases_err; eassumption.
  Qed.
End Rename.

Section Translate.
  Variable n : names.
  Hypothesis inj : forall k1 k2 r, In (k1, r) (nm_trans n) -> In (k2, r) (nm_trans n) -> k1 = k2.

  Lemma translate_spec os : forall d, NoDup os -> (forall a, In a os -> exists r, dget a (nm_trans n) = Some r /\ ~ In r os) ->
    (forall p, In p os -> dget p (translate n os d) = None) /\
    (forall a p, In a os -> dget a (nm_trans n) = Some p ->
       dget p (translate n os d) = match dget a d with Some v => Some v | None => dget p d end) /\
    (forall p, ~ In p os -> (forall a, In a os -> dget a (nm_trans n) <> Some p) -> dget p (translate n os d) = dget p d).
  Proof.
    unfold translate. induction os as [|a os IH]; intros d nd ht; [repeat split; try reflexivity; intros ? []; contradiction|].
    inversion nd as [|? ? ni nd']; subst. cbn [fold_left].
    assert (ht' : forall b, In b os -> exists r, dget b (nm_trans n) = Some r /\ ~ In r os).
    { intros b i. destruct (ht b (or_intror i)) as (r & e & nr). exists r. split; [exact e|]. intros ir. apply nr. right. exact ir. }
    destruct (ht a (or_introl eq_refl)) as (ra & era & nra).
    destruct (IH (translate1 n d a) nd' ht') as (h1 & h2 & h3).
    assert (tg : forall b, In b os -> dget b (nm_trans n) <> Some a).
    { intros b i e. destruct (ht b (or_intror i)) as (r & e' & nr). rewrite e in e'. injection e' as <-. apply nr. left. reflexivity. }
    assert (tr : forall b, In b os -> dget b (nm_trans n) <> Some ra).
    { intros b i e. assert (b = a) by (apply (inj b a ra); apply dget_In; assumption). subst b. contradiction. }
    assert (q : forall p, dget p (translate1 n d a) =
      if eq_dec p ra then match dget a d with Some v => Some v | None => dget p d end else if eq_dec p a then None else dget p d).
    { intros p. unfold translate1. rewrite era. destruct (dget a d) as [v|] eqn:ea.
      - rewrite dget_dset, dget_ddel. destruct (eq_dec p ra); [reflexivity|]. destruct (eq_dec p a); reflexivity.
      - destruct (eq_dec p ra); [reflexivity|]. destruct (eq_dec p a) as [->|]; [exact ea|reflexivity]. }
    assert (nar : a <> ra) by (intros ->; apply nra; left; reflexivity).
    split; [|split].
    - intros p [<-|i]; [|apply h1; exact i]. rewrite h3 by assumption. rewrite q. destruct (eq_dec a ra); [contradiction|].
      destruct (eq_dec a a); [reflexivity|contradiction].
    - intros b p [<-|i] e.
      + rewrite era in e. injection e as <-. rewrite h3; [|intros i; apply nra; right; exact i|exact tr]. rewrite q.
        destruct (eq_dec ra ra); [reflexivity|contradiction].
      + rewrite (h2 b p i e).
        assert (b <> a) by (intros ->; contradiction). assert (p <> ra) by (intros ->; exact (tr b i e)).
        assert (p <> a) by (intros ->; exact (tg b i e)).
        assert (b <> ra) by (intros ->; apply nra; right; exact i).
        rewrite !q. destruct (eq_dec b ra); [contradiction|]. destruct (eq_dec b a); [contradiction|].
        destruct (eq_dec p ra); [contradiction|]. destruct (eq_dec p a); [contradiction|]. reflexivity.
    - intros p np hp. assert (p <> a) by (intros ->; apply np; left; reflexivity).
      assert (p <> ra) by (intros ->; exact (hp a (or_introl eq_refl) era)).
      rewrite h3; [|intros i; apply np; right; exact i|intros b i; apply hp; right; exact i]. rewrite q.
      destruct (eq_dec p ra); [contradiction|]. destruct (eq_dec p a); [contradiction|]. reflexivity.
  Qed.
End Translate.

Section Deserialize.
  Variable n : names.
  Hypothesis S : Separate n.

  (** a table with at most one name for [p] *)
  Lemma find_name (t : dict string string) (d : dict string pyval) p : (forall k1 k2 r, In (k1, r) t -> In (k2, r) t -> k1 = k2) ->
    (exists a v, In (a, p) t /\ dget a d = Some v) \/ (forall a, In (a, p) t -> dget a d = None).
  Proof.
    intros inj. destruct (find (fun x => beq (snd x) p) t) as [[a p']|] eqn:e.
    - apply find_some in e. destruct e as [i b]. cbn [snd] in b. destruct (beq_spec EqDec_string p' p) as [->|]; [|discriminate].
      destruct (dget a d) as [v|] eqn:ea; [left; eauto|]. right. intros b' i'. rewrite (inj b' a p i' i). exact ea.
    - right. intros a i. apply (find_none _ _ e) in i. cbn [snd] in i. rewrite (beq_refl EqDec_string) in i. discriminate.
  Qed.

  Lemma to_translate_spec d k : In k (to_translate n d) <-> In k (dkeys d) /\ ~ In k (nm_props n) /\ In k (dkeys (nm_trans n)).
  Proof. unfold to_translate. rewrite filter_In, andb_true_iff, negb_true_iff, mem_not_In, dmem_In. tauto. Qed.

  Lemma key_of (t : dict string string) a p : In (a, p) t -> In a (dkeys t).
  Proof. intros i. apply (in_map fst) in i. exact i. Qed.

  Lemma translate_gives order d : dwf d -> Permutation order (to_translate n d) ->
    (forall p, In p (dkeys (nm_trans n)) -> ~ In p (nm_props n) -> dget p (translate n order d) = None) /\
    (forall a p v, In (a, p) (nm_trans n) -> ~ In a (nm_props n) -> dget a d = Some v -> dget p (translate n order d) = Some v) /\
    (forall p, ~ (In p (dkeys (nm_trans n)) /\ ~ In p (nm_props n)) ->
       (forall a, In (a, p) (nm_trans n) -> ~ In a (nm_props n) -> dget a d = None) -> dget p (translate n order d) = dget p d).
  Proof.
    intros wf perm. assert (mo : forall k, In k order <-> In k (to_translate n d)).
    { intros k. split; [apply Permutation_in; exact perm|apply Permutation_in; apply Permutation_sym; exact perm]. }
    assert (nd : NoDup order).
    { apply (Permutation_NoDup (Permutation_sym perm)). unfold to_translate. apply NoDup_filter. exact wf. }
    assert (tgt : forall a r, In (a, r) (nm_trans n) -> ~ In r order).
    { intros a r i ir. apply mo, to_translate_spec in ir. destruct ir as (_ & np & it).
      apply (sep_target _ S a r (or_introl i)). left. split; assumption. }
    destruct (translate_spec n (sep_inj_t _ S) order d nd) as (h1 & h2 & h3).
    { intros a i. apply mo, to_translate_spec in i. destruct i as (_ & _ & i). destruct (dkeys_dget a _ i) as (r & e).
      exists r. split; [exact e|]. apply (tgt a). apply dget_In. exact e. }
    split; [|split].
    - intros p it np. destruct (mem_spec EqDec_string p order) as [i|ni]; [apply h1; exact i|].
      rewrite h3; [|exact ni|].
      + apply dget_None. intros ik. apply ni, mo, to_translate_spec. tauto.
      + intros a ia e. apply dget_In in e. apply (sep_target _ S a p (or_introl e)). left. split; assumption.
    - intros a p v i np hv. assert (ia : In a order).
      { apply mo, to_translate_spec. split; [eapply dget_Some_key; exact hv|]. split; [exact np|eapply key_of; exact i]. }
      rewrite (h2 a p ia (In_dget a p _ (sep_trans _ S) i)), hv. reflexivity.
    - intros p np hp. apply h3.
      + intros i. apply mo, to_translate_spec in i. tauto.
      + intros a ia e. apply mo, to_translate_spec in ia. destruct ia as (ik & na & _). apply dget_In in e.
        specialize (hp a e na). apply dget_None in hp. contradiction.
  Qed.

  Lemma deserialize_gives order d r : dwf d -> Permutation order (to_translate n d) -> alias_deserialize n order d = Ok r ->
    forall p v, Gives n d p v -> dget p r = Some v.
  Proof.
    intros wf perm e. unfold alias_deserialize in e. destruct (rename_aliases Ok (nm_alias n) (translate n order d)) as [v2|] eqn:e2; [|discriminate].
    cbn [rbind] in e. destruct (translate_gives order d wf perm) as (t1 & t2 & t3).
    assert (tga : forall a p, In (a, p) (nm_alias n) -> ~ other_name n p) by (intros a p i; apply (sep_target _ S a p); tauto).
    assert (tgn : forall a p, In (a, p) (nm_neg n) -> ~ other_name n p) by (intros a p i; apply (sep_target _ S a p); tauto).
    assert (tgt : forall a p, In (a, p) (nm_trans n) -> ~ other_name n p) by (intros a p i; apply (sep_target _ S a p); tauto).
    pose proof (rename_ok _ _ _ _ (sep_alias _ S) (sep_inj_a _ S) (fun a p i j => tga a p i (or_intror (or_introl j))) e2) as A.
    pose proof (rename_ok _ _ _ _ (sep_neg _ S) (sep_inj_n _ S) (fun a p i j => tgn a p i (or_intror (or_intror j))) e) as N.
    (* the names of the aliases are untouched by the earlier steps *)
    assert (ka : forall a p, In (a, p) (nm_alias n) -> dget a (translate n order d) = dget a d).
    { intros a p i. apply t3.
      - intros [h1 h2]. destruct (sep_ta _ S a h1 h2) as [h _]. apply h. eapply key_of; exact i.
      - intros b ib. exfalso. apply (tgt b a ib). right. left. eapply key_of; exact i. }
    assert (kn : forall a p, In (a, p) (nm_neg n) -> dget a v2 = dget a d).
    { intros a p i. rewrite (rn_other _ _ _ _ A).
      - apply t3.
        + intros [h1 h2]. destruct (sep_ta _ S a h1 h2) as [_ h]. apply h. eapply key_of; exact i.
        + intros b ib. exfalso. apply (tgt b a ib). right. right. eapply key_of; exact i.
      - intros h. apply (sep_an _ S a h). eapply key_of; exact i.
      - intros b ib. exfalso. apply (tga b a ib). right. right. eapply key_of; exact i. }
    intros p v g. destruct g as [a v w i hv hw|a v hn i hv|a v hno i na hv|v hno ht np hv].
    - destruct (rn_moved _ _ _ _ N a p v i) as (w' & ew & er); [rewrite (kn a p i); exact hv|]. apply py_neg_spec in hw. congruence.
    - assert (np : ~ other_name n p) by (eapply tga; exact i).
      rewrite (rn_other _ _ _ _ N); [|intros j; apply np; right; right; exact j|intros b ib; rewrite (kn b p ib); apply hn; exact ib].
      destruct (rn_moved _ _ _ _ A a p v i) as (w & ew & er); [rewrite (ka a p i); exact hv|]. injection ew as <-. exact er.
    - assert (np : ~ other_name n p) by (eapply tgt; exact i).
      rewrite (rn_other _ _ _ _ N); [|intros j; apply np; right; right; exact j|intros b ib; rewrite (kn b p ib); apply hno; left; exact ib].
      rewrite (rn_other _ _ _ _ A); [|intros j; apply np; right; left; exact j|intros b ib; rewrite (ka b p ib); apply hno; right; exact ib].
      exact (t2 a p v i na hv).
    - rewrite (rn_other _ _ _ _ N); [|intros j; apply np; right; right; exact j|intros b ib; rewrite (kn b p ib); apply hno; left; exact ib].
      rewrite (rn_other _ _ _ _ A); [|intros j; apply np; right; left; exact j|intros b ib; rewrite (ka b p ib); apply hno; right; exact ib].
      rewrite t3; [exact hv|intros h; apply np; left; exact h|exact ht].
  Qed.

  (** every present value is given by something, or the negation failed *)
  Lemma deserialize_given order d r : dwf d -> Permutation order (to_translate n d) -> alias_deserialize n order d = Ok r ->
    forall p v, dget p r = Some v -> Gives n d p v.
  Proof.
    intros wf perm e p v hr.
    assert (tgt : forall a, In (a, p) (nm_trans n) \/ In (a, p) (nm_alias n) \/ In (a, p) (nm_neg n) -> ~ other_name n p).
    { intros a i. exact (sep_target _ S a p i). }
    assert (same : forall w, Gives n d p w -> Gives n d p v).
    { intros w g. pose proof (deserialize_gives order d r wf perm e p w g) as q. congruence. }
    unfold alias_deserialize in e. destruct (rename_aliases Ok (nm_alias n) (translate n order d)) as [v2|] eqn:e2; [|discriminate].
    cbn [rbind] in e. destruct (translate_gives order d wf perm) as (t1 & t2 & t3).
    assert (tga : forall a p, In (a, p) (nm_alias n) -> ~ other_name n p) by (intros a q i; apply (sep_target _ S a q); tauto).
    assert (tgn : forall a p, In (a, p) (nm_neg n) -> ~ other_name n p) by (intros a q i; apply (sep_target _ S a q); tauto).
    assert (tgt' : forall a p, In (a, p) (nm_trans n) -> ~ other_name n p) by (intros a q i; apply (sep_target _ S a q); tauto).
    pose proof (rename_ok _ _ _ _ (sep_alias _ S) (sep_inj_a _ S) (fun a p i j => tga a p i (or_intror (or_introl j))) e2) as A.
    pose proof (rename_ok _ _ _ _ (sep_neg _ S) (sep_inj_n _ S) (fun a p i j => tgn a p i (or_intror (or_intror j))) e) as N.
    destruct (mem_spec EqDec_string p (dkeys (nm_neg n))) as [i|nn]; [rewrite (rn_gone _ _ _ _ N p i) in hr; discriminate|].
    assert (kn : forall a p, In (a, p) (nm_neg n) -> dget a v2 = dget a d).
    { intros a q i. rewrite (rn_other _ _ _ _ A).
      - apply t3.
        + intros [h1 h2]. destruct (sep_ta _ S a h1 h2) as [_ h]. apply h. eapply key_of; exact i.
        + intros b ib. exfalso. apply (tgt' b a ib). right. right. eapply key_of; exact i.
      - intros h. apply (sep_an _ S a h). eapply key_of; exact i.
      - intros b ib. exfalso. apply (tga b a ib). right. right. eapply key_of; exact i. }
    destruct (find_name (nm_neg n) d p (sep_inj_n _ S)) as [(a & x & i & hx)|hn].
    { destruct (rn_moved _ _ _ _ N a p x i) as (w & ew & er); [rewrite (kn a p i); exact hx|].
      apply (same w). apply py_neg_spec in ew. eapply gives_neg; eassumption. }
    rewrite (rn_other _ _ _ _ N) in hr; [|exact nn|intros b ib; rewrite (kn b p ib); apply hn; exact ib].
    destruct (find_name (nm_alias n) d p (sep_inj_a _ S)) as [(a & x & i & hx)|ha].
    { apply (same x). eapply gives_alias; eassumption. }
    destruct (mem_spec EqDec_string p (dkeys (nm_alias n))) as [i|na]; [rewrite (rn_gone _ _ _ _ A p i) in hr; discriminate|].
    assert (ka : forall a p, In (a, p) (nm_alias n) -> dget a (translate n order d) = dget a d).
    { intros a q i. apply t3.
      - intros [h1 h2]. destruct (sep_ta _ S a h1 h2) as [h _]. apply h. eapply key_of; exact i.
      - intros b ib. exfalso. apply (tgt' b a ib). right. left. eapply key_of; exact i. }
    rewrite (rn_other _ _ _ _ A) in hr; [|exact na|intros b ib; rewrite (ka b p ib); apply ha; exact ib].
    assert (hno : forall b, In (b, p) (nm_neg n) \/ In (b, p) (nm_alias n) -> dget b d = None) by (intros b [ib|ib]; auto).
    destruct (find_name (nm_trans n) d p (sep_inj_t _ S)) as [(a & x & i & hx)|ht].
    - destruct (mem_spec EqDec_string a (nm_props n)) as [ip|np].
      + (* a is a property itself: not translated *)
        assert (np' : ~ other_name n p) by (eapply tgt'; exact i).
        assert (ht : forall b, In (b, p) (nm_trans n) -> ~ In b (nm_props n) -> dget b d = None).
        { intros b ib nb. rewrite (sep_inj_t _ S b a p ib i) in nb. contradiction. }
        rewrite t3 in hr; [|intros h; apply np'; left; exact h|exact ht]. apply gives_own; assumption.
      + apply (same x). eapply gives_trans; eassumption.
    - assert (np : ~ (In p (dkeys (nm_trans n)) /\ ~ In p (nm_props n))).
      { intros [h1 h2]. rewrite (t1 p h1 h2) in hr. discriminate. }
      rewrite t3 in hr; [|exact np|intros b ib _; apply ht; exact ib].
      apply gives_own; try assumption; [intros b ib _; apply ht; exact ib|]. intros [h|[h|h]]; contradiction.
  Qed.

  Lemma deserialize_err order d x : dwf d -> Permutation order (to_translate n d) ->
    alias_deserialize n order d = Err x -> x = TypeError /\ exists a p v, In (a, p) (nm_neg n) /\ dget a d = Some v /\ py_neg v = Err TypeError.
  Proof.
    intros wf perm e. unfold alias_deserialize in e. destruct (rename_aliases Ok (nm_alias n) (translate n order d)) as [v2|y] eqn:e2.
    - cbn [rbind] in e. destruct (rename_err _ _ _ _ (sep_neg _ S) e) as (a & p & v & i & hv & hf).
      assert (x = TypeError) by (destruct v; cbn in hf; congruence). subst x. split; [reflexivity|]. exists a, p, v. split; [exact i|]. split; [|exact hf].
      destruct (translate_gives order d wf perm) as (t1 & t2 & t3).
      assert (tga : forall a p, In (a, p) (nm_alias n) -> ~ other_name n p) by (intros b q j; apply (sep_target _ S b q); tauto).
      pose proof (rename_ok _ _ _ _ (sep_alias _ S) (sep_inj_a _ S) (fun a p i j => tga a p i (or_intror (or_introl j))) e2) as A.
      rewrite <- hv. symmetry. rewrite (rn_other _ _ _ _ A).
      + apply t3.
        * intros [h1 h2]. destruct (sep_ta _ S a h1 h2) as [_ h]. apply h. eapply key_of; exact i.
        * intros b ib. exfalso. apply (sep_target _ S b a (or_introl ib)). right. right. eapply key_of; exact i.
      + intros h. apply (sep_an _ S a h). eapply key_of; exact i.
      + intros b ib. exfalso. apply (tga b a ib). right. right. eapply key_of; exact i.
    - destruct (rename_err _ _ _ _ (sep_alias _ S) e2) as (a & p & v & i & hv & hf). discriminate.
  Qed.
End Deserialize.

(** serialisation *)
Lemma add_aliases_get f t : forall ret r, dwf t -> (forall a p, In (a, p) t -> ~ In p (dkeys t)) ->
  add_aliases f [] [] t ret = Ok r ->
  (forall p, ~ In p (dkeys t) -> dget p r = dget p ret) /\
  (forall a p, In (a, p) t -> match dget p ret with
                              | None | Some VNone => dget a r = dget a ret
                              | Some v => exists w, f v = Ok w /\ dget a r = Some w end).
Proof.
  induction t as [|[a1 p1] t IH]; intros ret r wf tg e; cbn [add_aliases orb mem] in e.
  - injection e as <-. split; [reflexivity|]. intros a p [].
  - inversion wf as [|? ? ni nd]; subst.
    assert (tg' : forall a p, In (a, p) t -> ~ In p (dkeys t)) by (intros a p i j; apply (tg a p (or_intror i)); right; exact j).
    assert (n1 : ~ In p1 (dkeys ((a1, p1) :: t))) by (apply (tg a1 p1); left; reflexivity).
    assert (step : forall ret', add_aliases f [] [] t ret' = Ok r -> (forall p, p <> a1 -> dget p ret' = dget p ret) ->
      (forall p, ~ In p (dkeys ((a1, p1) :: t)) -> dget p r = dget p ret) /\
      (forall a p, In (a, p) t -> match dget p ret with None | Some VNone => dget a r = dget a ret
                                                      | Some v => exists w, f v = Ok w /\ dget a r = Some w end) /\
      dget a1 r = dget a1 ret').
    { intros ret' e' hr. destruct (IH ret' r nd tg' e') as [h1 h2]. split; [|split].
      - intros p np. cbn [dkeys map fst In] in np. rewrite h1; [apply hr; intros ->; apply np; left; reflexivity|intros i; apply np; right; exact i].
      - intros a p i. assert (na : a <> a1) by (intros ->; apply ni; apply (in_map fst) in i; exact i).
        assert (np : p <> a1) by (intros ->; apply (tg a a1 (or_intror i)); left; reflexivity).
        specialize (h2 a p i). rewrite (hr p np), (hr a na) in h2. exact h2.
      - apply h1. exact ni. }
    destruct (dget p1 ret) as [v1|] eqn:e1.
    + destruct (match v1 with VNone => true | _ => false end) eqn:b.
      * destruct v1; try discriminate. destruct (step ret e (fun p _ => eq_refl)) as (h1 & h2 & h3). split; [exact h1|].
        intros a p [i|i]; [injection i as <- <-; rewrite e1; exact h3|apply h2; exact i].
      * assert (q : exists w, f v1 = Ok w /\ add_aliases f [] [] t (dset a1 w ret) = Ok r).
        { destruct v1; try discriminate; (destruct (f _) as [w|] eqn:ef; [|discriminate]; exists w; split; [reflexivity|exact e]). }
        destruct q as (w & ef & e'). destruct (step (dset a1 w ret) e' (fun p np => dget_dset_other a1 p w ret np)) as (h1 & h2 & h3).
        split; [exact h1|]. intros a p [i|i]; [|apply h2; exact i]. injection i as <- <-. rewrite e1. rewrite dget_dset_same in h3.
        destruct v1; try discriminate; (exists w; split; [exact ef|exact h3]).
    + destruct (step ret e (fun p _ => eq_refl)) as (h1 & h2 & h3). split; [exact h1|].
      intros a p [i|i]; [injection i as <- <-; rewrite e1; exact h3|apply h2; exact i].
Qed.

Definition written (only excludes : list string) (k : string) : bool := negb ((match only with [] => false | _ => negb (mem k only) end) || mem k excludes).
Lemma written_spec only excludes k : written only excludes k = true <-> Written only excludes k.
Proof.
  unfold written, Written. rewrite negb_true_iff, orb_false_iff, mem_not_In. destruct only as [|x l].
  - split; intros [h1 h2]; (split; [auto|exact h2]).
  - rewrite negb_false_iff, mem_In. split; intros [h1 h2]; (split; [|exact h2]); [right; exact h1|destruct h1; [discriminate|assumption]].
Qed.
Lemma add_aliases_filter f only excludes t : forall d,
  add_aliases f only excludes t d = add_aliases f [] [] (filter (fun kp => written only excludes (fst kp)) t) d.
Proof.
  induction t as [|[a p] t IH]; intros d; [reflexivity|]. cbn [add_aliases filter fst]. unfold written at 1.
  destruct (_ || mem a excludes); cbn [negb]; [apply IH|]. cbn [add_aliases orb mem].
  destruct (dget p d) as [v|]; [|apply IH]. destruct v; try apply IH; (destruct (f _); cbn [rbind]; [apply IH|reflexivity]).
Qed.
