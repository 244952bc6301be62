(** C47: the memory repository. *)
From Verif Require Import Base Repo_Model.
Local Open Scope list_scope.

(** ** specification vocabulary *)
(** the successful commits of a history, in order: the identity of the entity after the commit, and the entity *)
Fixpoint commits (st : repo) (xs : list repo_op) : list (list kval * nat) :=
  match xs with
  | [] => []
  | x :: xs' => (match x with
                 | Commit o => if is_ok (fst (repo_step st x)) then [(keys_of (objs (snd (repo_step st x))) o, o)] else []
                 | _ => []
                 end) ++ commits (snd (repo_step st x)) xs'
  end.
(** no primary key of a stored entity is changed behind the repository's back *)
Fixpoint Tame (st : repo) (xs : list repo_op) : Prop :=
  match xs with
  | [] => True
  | x :: xs' => match x with SetKey o _ _ => ~ In o (content st) | _ => True end /\ Tame (snd (repo_step st x)) xs'
  end.

(** ** lemmas *)
Lemma nth_error_skipn {A} i : forall (l : list A) j, nth_error (skipn i l) j = nth_error l (i + j).
Proof. induction i as [|i IH]; intros [|x l] j; cbn; try reflexivity; [destruct j; reflexivity|apply IH]. Qed.
Lemma skipn_S {A} i : forall (l : list A) x r, skipn i l = x :: r -> skipn (S i) l = r.
Proof. induction i as [|i IH]; intros [|y l] x r e; cbn in *; try discriminate; [congruence|]. apply (IH l x r e). Qed.
Lemma dkeys_upd {K V} {E : EqDec K} (k : K) (v : V) d : dmem k d = true -> dkeys (dset k v d) = dkeys d.
Proof. intros h. rewrite dkeys_dset. apply dmem_In in h. destruct (mem_spec E k (dkeys d)); [reflexivity|contradiction]. Qed.
Lemma keys_dset h o ks c : keys_of (dset o ks h) c = if eq_dec c o then ks else keys_of h c.
Proof. unfold keys_of. rewrite dget_dset. destruct (eq_dec c o); reflexivity. Qed.
Lemma set_nth_len i k : forall ks, length (set_nth_key i k ks) = length ks.
Proof. induction i as [|i IH]; intros [|x r]; cbn; try reflexivity. f_equal. apply IH. Qed.
Lemma set_nth_get i k : forall ks j, nth_error (set_nth_key i k ks) j = if Nat.eqb i j then match nth_error ks j with Some _ => Some k | None => None end else nth_error ks j.
Proof.
  induction i as [|i IH]; intros [|x r] [|j]; cbn; try reflexivity.
  - destruct (Nat.eqb i j); reflexivity.
  - apply IH.
Qed.
Lemma next_key_spec iks : forall m z, next_key m iks = Ok z -> (m < z)%Z /\ forall z', In (KInt z') iks -> (z' < z)%Z.
Proof.
  induction iks as [|k iks IH]; intros m z h; cbn in h.
  - inversion h. split; [lia|intros z' []].
  - destruct k as [|z0|s]; try discriminate. destruct (IH _ _ h) as [h1 h2]. split; [lia|]. intros z' [e|i]; [inversion e; subst; lia|apply h2; exact i].
Qed.
Lemma column_In h i cs col c k : column h i cs = Ok col -> In c cs -> nth_error (keys_of h c) i = Some k -> In k col.
Proof.
  revert col. induction cs as [|c0 cs IH]; intros col e; [intros []|]. cbn in e. destruct (nth_error (keys_of h c0) i) as [k0|] eqn:n0; [|discriminate].
  destruct (column h i cs) as [r|] eqn:er; [|discriminate]. inversion e; subst. intros [->|ic] n.
  - left. congruence.
  - right. eapply IH; [reflexivity|exact ic|exact n].
Qed.
Lemma assign_other cs o : forall pk h i r h', assign h cs o i pk = (r, h') -> forall c, c <> o -> keys_of h' c = keys_of h c.
Proof.
  induction pk as [|k pk IH]; intros h i r h' e c n; cbn [assign] in e; [inversion e; reflexivity|].
  destruct (column h i cs) as [col|]; [|inversion e; reflexivity].
  destruct k as [|z|s]; [|eapply IH; eassumption|eapply IH; eassumption].
  destruct (next_key (-1) col) as [z|]; [|inversion e; reflexivity].
  rewrite (IH _ _ _ _ e c n), keys_dset. destruct (eq_dec c o); [congruence|reflexivity].
Qed.
Lemma assign_keys_dom cs o : forall pk h i r h', assign h cs o i pk = (r, h') -> dmem o h = true -> dkeys h' = dkeys h.
Proof.
  induction pk as [|k pk IH]; intros h i r h' e d; cbn [assign] in e; [inversion e; reflexivity|].
  destruct (column h i cs) as [col|]; [|inversion e; reflexivity].
  destruct k as [|z|s]; [|eapply IH; eassumption|eapply IH; eassumption].
  destruct (next_key (-1) col) as [z|]; [|inversion e; reflexivity].
  assert (k1 : dkeys (dset o (set_nth_key i (KInt z) (keys_of h o)) h) = dkeys h).
  { apply dkeys_upd. exact d. }
  rewrite <- k1. apply (IH _ _ _ _ e). unfold dmem. rewrite dget_dset_same. reflexivity.
Qed.
(** what one commit does to the keys of the entity, when it is not stored already *)
Definition Assigned (h : heap) (cs : list nat) (i : nat) (before after : list kval) : Prop :=
  length after = length before /\
  forall j k, nth_error before j = Some k ->
    (j < i -> nth_error after j = Some k) /\
    (i <= j -> k <> KNone -> nth_error after j = Some k) /\
    (i <= j -> k = KNone -> exists z, nth_error after j = Some (KInt z) /\ (0 <= z)%Z /\
       forall c z', In c cs -> nth_error (keys_of h c) j = Some (KInt z') -> (z' < z)%Z).
Lemma assign_spec cs o : ~ In o cs -> forall pk h i h', dmem o h = true -> skipn i (keys_of h o) = pk ->
  assign h cs o i pk = (Ok tt, h') -> Assigned h cs i (keys_of h o) (keys_of h' o).
Proof.
  intros no. induction pk as [|k pk IH]; intros h i h' d sk e; cbn [assign] in e.
  - inversion e; subst. split; [reflexivity|]. intros j k n.
    assert (lj : j < i). { apply Nat.lt_nge. intros le. assert (x : nth_error (skipn i (keys_of h' o)) (j - i) = Some k).
      { rewrite nth_error_skipn. replace (i + (j - i)) with j by lia. exact n. } rewrite sk in x. destruct (j - i); discriminate. }
    split; [intros _; exact n|]. split; intros; lia.
  - destruct (column h i cs) as [col|] eqn:ec; [|discriminate].
    assert (n0 : nth_error (keys_of h o) i = Some k). { replace i with (i + 0) by lia. rewrite <- nth_error_skipn, sk. reflexivity. }
    assert (sk' : forall h2 : heap, skipn (S i) (keys_of h o) = pk).
    { intros _. eapply skipn_S. exact sk. }
    destruct k as [|z|s].
    + destruct (next_key (-1) col) as [z|] eqn:en; [|discriminate].
      set (h1 := dset o (set_nth_key i (KInt z) (keys_of h o)) h) in *.
      assert (k1 : keys_of h1 o = set_nth_key i (KInt z) (keys_of h o)). { unfold h1. rewrite keys_dset. destruct (eq_dec o o); congruence. }
      assert (oth : forall c, In c cs -> keys_of h1 c = keys_of h c). { intros c ic. unfold h1. rewrite keys_dset. destruct (eq_dec c o); [congruence|reflexivity]. }
      destruct (IH h1 (S i) h') as [hl hg].
      * unfold h1, dmem. rewrite dget_dset_same. reflexivity.
      * rewrite k1. rewrite <- (sk' h). clear. generalize (keys_of h o). intros l. revert i. induction l as [|x l IHl]; intros [|i]; try reflexivity. cbn. destruct l; [destruct i; reflexivity|]. apply IHl.
      * exact e.
      * rewrite k1, set_nth_len in hl. split; [exact hl|]. intros j k n. pose proof (hg j) as hj. rewrite k1, set_nth_get in hj.
        destruct (Nat.eqb_spec i j) as [<-|ne].
        -- assert (k = KNone) by congruence. subst. rewrite n0 in hj. specialize (hj (KInt z) eq_refl). destruct hj as [hj _]. split; [intros; lia|]. split; [congruence|].
           intros _ _. exists z. destruct (next_key_spec _ _ _ en) as [p1 p2]. split; [apply hj; lia|]. split; [lia|]. intros c z' ic nz. apply p2. eapply column_In; eassumption.
        -- specialize (hj k n). destruct hj as (a1 & a2 & a3). split; [intros; apply a1; lia|]. split; [intros; apply a2; [lia|assumption]|].
           intros le kn. destruct (a3 ltac:(lia) kn) as (z1 & b1 & b2 & b3). exists z1. split; [exact b1|]. split; [exact b2|]. intros c z' ic nz. apply (b3 c z' ic). rewrite (oth c ic). exact nz.
    + destruct (IH h (S i) h' d (sk' h) e) as [hl hg]. split; [exact hl|]. intros j k n. destruct (hg j k n) as (a1 & a2 & a3).
      split; [intros; apply a1; lia|]. destruct (Nat.eq_dec i j) as [<-|ne].
      * assert (k = KInt z) by congruence. subst. split; [intros; apply a1; lia|congruence].
      * split; [intros; apply a2; [lia|assumption]|intros; apply a3; [lia|assumption]].
    + destruct (IH h (S i) h' d (sk' h) e) as [hl hg]. split; [exact hl|]. intros j k n. destruct (hg j k n) as (a1 & a2 & a3).
      split; [intros; apply a1; lia|]. destruct (Nat.eq_dec i j) as [<-|ne].
      * assert (k = KStr s) by congruence. subst. split; [intros; apply a1; lia|congruence].
      * split; [intros; apply a2; [lia|assumption]|intros; apply a3; [lia|assumption]].
Qed.
Lemma assign_full cs o : forall pk h i r h', ~ In KNone pk -> assign h cs o i pk = (r, h') -> h' = h.
Proof.
  induction pk as [|k pk IH]; intros h i r h' nn e; cbn [assign] in e; [inversion e; reflexivity|].
  destruct (column h i cs) as [col|]; [|inversion e; reflexivity].
  destruct k as [|z|s]; [destruct nn; left; reflexivity| |]; (eapply IH; [|exact e]; intros i0; apply nn; right; exact i0).
Qed.
Lemma assigned_no_none h cs b a : Assigned h cs 0 b a -> ~ In KNone a.
Proof.
  intros [hl hg] i. apply In_nth_error in i. destruct i as (j & n).
  destruct (nth_error b j) as [k|] eqn:nb.
  - destruct (hg j k nb) as (_ & a2 & a3). destruct k as [|z|s].
    + destruct (a3 ltac:(lia) eq_refl) as (z & q & _). congruence.
    + rewrite a2 in n by (lia || discriminate). discriminate.
    + rewrite a2 in n by (lia || discriminate). discriminate.
  - apply nth_error_None in nb. assert (nth_error a j = None) by (apply nth_error_None; lia). congruence.
Qed.

Lemma place_In h pk o x : forall cs, NoDup (map (keys_of h) cs) ->
  (In x (place h pk o cs) <-> x = o \/ (In x cs /\ keys_of h x <> pk)).
Proof.
  induction cs as [|c cs IH]; intros nd; cbn [place].
  - cbn. intuition congruence.
  - inversion nd as [|? ? ni nd']; subst. destruct (beq_spec _ pk (keys_of h c)) as [e|n].
    + subst. cbn. split.
      * intros [->|i]; [left; reflexivity|right]. split; [right; exact i|]. intros q. apply ni. rewrite <- q. apply in_map. exact i.
      * intros [->|[[->|i] q]]; [left; reflexivity|congruence|right; exact i].
    + cbn [In]. rewrite IH by exact nd'. split.
      * intros [->|[->|[i q]]]; [right; split; [left; reflexivity|congruence]|left; reflexivity|right; split; [right; exact i|exact q]].
      * intros [->|[[->|i] q]]; [right; left; reflexivity|left; reflexivity|right; right; split; assumption].
Qed.
Lemma place_NoDup h o : forall cs, NoDup (map (keys_of h) cs) -> NoDup (map (keys_of h) (place h (keys_of h o) o cs)).
Proof.
  induction cs as [|c cs IH]; intros nd; cbn [place]; [constructor; [intros []|constructor]|].
  inversion nd as [|? ? ni nd']; subst. destruct (beq_spec _ (keys_of h o) (keys_of h c)) as [e|n].
  - cbn. rewrite e. exact nd.
  - cbn. constructor; [|apply IH; exact nd']. intros i. apply in_map_iff in i. destruct i as (x & q & i). apply (place_In h _ o x cs nd') in i.
    destruct i as [->|[i _]]; [congruence|]. apply ni. rewrite <- q. apply in_map. exact i.
Qed.

(** ** invariant *)
Definition RInv (st : repo) : Prop :=
  dkeys (objs st) = seq 0 (length (objs st)) /\
  dwf (catalog st) /\
  NoDup (map (keys_of (objs st)) (content st)) /\
  (forall pk o, dget pk (catalog st) = Some o <-> In o (content st) /\ keys_of (objs st) o = pk) /\
  (forall o, In o (content st) -> In o (dkeys (objs st)) /\ ~ In KNone (keys_of (objs st) o)).

Lemma map_keys_ext h h' cs : (forall c, In c cs -> keys_of h' c = keys_of h c) -> map (keys_of h') cs = map (keys_of h) cs.
Proof. intros e. apply map_ext_in. exact e. Qed.
Lemma keys_len (h h' : heap) : dkeys h' = dkeys h -> length h' = length h.
Proof. intros e. rewrite <- (map_length fst h'), <- (map_length fst h). unfold dkeys in e. rewrite e. reflexivity. Qed.

Lemma commit_inv st o r st' : RInv st -> dmem o (objs st) = true -> commit true st o = (r, st') -> RInv st' /\
  (r = Ok tt -> (~ In o (content st) -> Assigned (objs st) (content st) 0 (keys_of (objs st) o) (keys_of (objs st') o)) /\
                (In o (content st) -> keys_of (objs st') o = keys_of (objs st) o)) /\
  (forall c, c <> o -> keys_of (objs st') c = keys_of (objs st) c) /\
  (forall e, r = Err e -> content st' = content st /\ catalog st' = catalog st).
Proof.
  intros (i1 & i2 & i3 & i4 & i5) d h. cbn [commit] in h.
  destruct (assign (objs st) (content st) o 0 (keys_of (objs st) o)) as [[[]|e] h1] eqn:ea.
  - inversion h; subst. clear h. cbn [objs catalog content].
    assert (oth : forall c, c <> o -> keys_of h1 c = keys_of (objs st) c) by (intros c n; eapply assign_other; eassumption).
    assert (dk : dkeys h1 = dkeys (objs st)) by (eapply assign_keys_dom; eassumption).
    assert (same : In o (content st) -> h1 = objs st). { intros i. eapply assign_full; [|exact ea]. apply i5. exact i. }
    assert (new : ~ In o (content st) -> Assigned (objs st) (content st) 0 (keys_of (objs st) o) (keys_of h1 o)).
    { intros ni. eapply assign_spec; [exact ni|exact d|reflexivity|exact ea]. }
    assert (kc : forall c, In c (content st) -> keys_of h1 c = keys_of (objs st) c).
    { intros c ic. destruct (eq_dec c o) as [->|n]; [rewrite (same ic); reflexivity|apply oth; exact n]. }
    assert (nd : NoDup (map (keys_of h1) (content st))) by (rewrite (map_keys_ext (objs st) h1); assumption).
    assert (nn : ~ In KNone (keys_of h1 o)).
    { destruct (mem_spec _ o (content st)) as [i|ni]; [rewrite (same i); apply i5; exact i|eapply assigned_no_none; apply new; exact ni]. }
    split; [|split; [intros _; split; [exact new|intros i; rewrite (same i); reflexivity]|split; [exact oth|intros e0 h0; discriminate]]].
    split; [cbn [objs]; rewrite (keys_len _ _ dk); etransitivity; [exact dk|exact i1]|]. split; [apply dwf_dset; exact i2|]. split; [cbn; apply place_NoDup; exact nd|]. split.
    + cbn [objs catalog content]. intros pk x. rewrite dget_dset, (place_In h1 _ o x _ nd). destruct (eq_dec pk (keys_of h1 o)) as [->|n].
      * split; [intros q; inversion q; subst; split; [left; reflexivity|reflexivity]|]. intros [[->|[i q]] k]; [reflexivity|congruence].
      * rewrite i4. split.
        -- intros [i q]. rewrite <- (kc x i) in q. split; [right; split; [exact i|congruence]|exact q].
        -- intros [[->|[i q]] k]; [congruence|]. split; [exact i|]. rewrite <- (kc x i). exact k.
    + cbn [objs catalog content]. intros x ix. apply (place_In h1 _ o x _ nd) in ix. rewrite dk. destruct ix as [->|[i q]].
      * split; [apply dmem_In; exact d|exact nn].
      * rewrite (kc x i). apply i5. exact i.
  - inversion h; subst. clear h. cbn [objs catalog content].
    assert (oth : forall c, c <> o -> keys_of h1 c = keys_of (objs st) c) by (intros c n; eapply assign_other; eassumption).
    assert (dk : dkeys h1 = dkeys (objs st)) by (eapply assign_keys_dom; eassumption).
    assert (same : In o (content st) -> h1 = objs st). { intros i. eapply assign_full; [|exact ea]. apply i5. exact i. }
    assert (kc : forall c, In c (content st) -> keys_of h1 c = keys_of (objs st) c).
    { intros c ic. destruct (eq_dec c o) as [->|n]; [rewrite (same ic); reflexivity|apply oth; exact n]. }
    split; [|split; [intros; discriminate|split; [exact oth|intros; split; reflexivity]]].
    split; [cbn [objs]; rewrite (keys_len _ _ dk); etransitivity; [exact dk|exact i1]|]. split; [exact i2|]. split; [cbn; rewrite (map_keys_ext (objs st) h1); assumption|]. split.
    + cbn [objs catalog content]. intros pk x. rewrite i4. split; intros [i q]; (split; [exact i|]); [rewrite (kc x i)|rewrite <- (kc x i)]; exact q.
    + cbn [objs catalog content]. intros x i. rewrite dk, (kc x i). apply i5. exact i.
Qed.
Lemma keys_app_new (h : heap) ks c : In c (dkeys h) -> keys_of (h ++ [(length h, ks)]) c = keys_of h c.
Proof.
  intros i. unfold keys_of. destruct (dkeys_dget c h i) as (v & e). rewrite e.
  assert (g : dget c (h ++ [(length h, ks)]) = Some v); [|rewrite g; reflexivity]. clear i. induction h as [|[k0 v0] h IH]; [discriminate|]. cbn in *.
  destruct (eq_dec c k0); [exact e|]. revert e. generalize (S (length h)). intros n0 e. clear IH. induction h as [|[k1 v1] h IH]; [discriminate|]. cbn in *. destruct (eq_dec c k1); [exact e|apply IH; exact e].
Qed.
Lemma step_inv st x : RInv st -> match x with SetKey o _ _ => ~ In o (content st) | _ => True end -> RInv (snd (repo_step st x)).
Proof.
  intros I t. destruct x as [ks|o|o i k]; cbn [repo_step].
  - destruct I as (i1 & i2 & i3 & i4 & i5). cbn [snd].
    assert (kc : forall c, In c (content st) -> keys_of (objs st ++ [(length (objs st), ks)]) c = keys_of (objs st) c) by (intros c ic; apply keys_app_new, i5; exact ic).
    split; [cbn; unfold dkeys in *; rewrite map_app, app_length, i1; cbn; rewrite seq_app; reflexivity|]. split; [exact i2|].
    split; [cbn; rewrite (map_keys_ext (objs st)); assumption|]. split.
    + cbn [objs catalog content]. intros pk x. rewrite i4. split; intros [i q]; (split; [exact i|]); [rewrite (kc x i)|rewrite <- (kc x i)]; exact q.
    + cbn [objs catalog content]. intros x i. rewrite (kc x i). destruct (i5 x i) as [a b]. split; [|exact b]. unfold dkeys in *. rewrite map_app. apply in_app_iff. left. exact a.
  - destruct (dmem o (objs st)) eqn:d; [|exact I]. destruct (commit true st o) as [r st'] eqn:c. cbn [snd]. eapply commit_inv; eassumption.
  - destruct I as (i1 & i2 & i3 & i4 & i5). cbn [snd]. destruct (dmem o (objs st)) eqn:d; [|split; auto].
    assert (kc : forall c, In c (content st) -> keys_of (dset o (set_nth_key i k (keys_of (objs st) o)) (objs st)) c = keys_of (objs st) c).
    { intros c ic. rewrite keys_dset. destruct (eq_dec c o); [congruence|reflexivity]. }
    assert (dk : dkeys (dset o (set_nth_key i k (keys_of (objs st) o)) (objs st)) = dkeys (objs st)) by (apply dkeys_upd; exact d).
    split; [cbn [objs]; rewrite (keys_len _ _ dk); etransitivity; [exact dk|exact i1]|]. split; [exact i2|]. split; [cbn [objs content]; rewrite (map_keys_ext (objs st)); assumption|]. split.
    + cbn [objs content catalog]. intros pk x. rewrite i4. split; intros [i0 q]; (split; [exact i0|]); [rewrite (kc x i0)|rewrite <- (kc x i0)]; exact q.
    + cbn [objs content catalog]. intros x i0. rewrite (kc x i0), dk. apply i5. exact i0.
Qed.
Lemma run_inv xs : forall st, RInv st -> Tame st xs -> RInv (repo_run st xs).
Proof. induction xs as [|x xs IH]; intros st I t; [exact I|]. destruct t as [t1 t2]. cbn. apply IH; [apply step_inv; assumption|exact t2]. Qed.
Lemma inv0 : RInv repo0.
Proof. split; [reflexivity|]. split; [apply dwf_nil|]. split; [constructor|]. split; [intros pk o; split; [discriminate|intros [[] _]]|intros o []]. Qed.

(** ** theorems *)
(** At most one stored entity per identity, and lookup by identity gives exactly that entity. *)
Theorem repo_one_per_identity : forall xs, Tame repo0 xs ->
  let st := repo_run repo0 xs in
  (forall c c', In c (content st) -> In c' (content st) -> keys_of (objs st) c = keys_of (objs st) c' -> c = c') /\
  NoDup (content st) /\
  (forall pk o, resolve_fkey st pk = Ok o <-> In o (content st) /\ keys_of (objs st) o = pk) /\
  (forall pk, repo_contains st pk = true <-> exists o, In o (content st) /\ keys_of (objs st) o = pk).
Proof.
  intros xs t st. destruct (run_inv xs repo0 inv0 t) as (_ & _ & i3 & i4 & _). fold st in i3, i4.
  split; [|split; [|split]].
  - intros c c' ic ic' e. assert (g : dget (keys_of (objs st) c) (catalog st) = Some c) by (apply i4; auto).
    assert (g' : dget (keys_of (objs st) c) (catalog st) = Some c') by (apply i4; auto). congruence.
  - eapply NoDup_map_inv. exact i3.
  - intros pk o. rewrite <- i4. unfold resolve_fkey. destruct (dget pk (catalog st)); split; congruence.
  - intros pk. unfold repo_contains, dmem. split.
    + destruct (dget pk (catalog st)) as [o|] eqn:g; [|discriminate]. intros _. exists o. apply i4. exact g.
    + intros (o & h). apply i4 in h. rewrite h. reflexivity.
Qed.
Print Assumptions repo_one_per_identity.

(** The entity found under an identity is the last one committed with it (in every history). *)
Theorem repo_last_committed : forall xs pk,
  resolve_fkey (repo_run repo0 xs) pk = match dget pk (rev (commits repo0 xs)) with Some o => Ok o | None => Err KeyError end.
Proof.
  assert (G : forall xs st pk, dget pk (catalog (repo_run st xs)) = match dget pk (rev (commits st xs)) with Some o => Some o | None => dget pk (catalog st) end).
  { induction xs as [|x xs IH]; intros st pk; [reflexivity|]. cbn [repo_run commits]. rewrite IH, rev_app_distr.
    assert (A : forall (a b : dict (list kval) nat), dget pk (a ++ b) = match dget pk a with Some v => Some v | None => dget pk b end).
    { induction a as [|[k0 v0] a IHa]; intros b; [reflexivity|]. cbn. destruct (eq_dec pk k0); [reflexivity|apply IHa]. }
    rewrite A. destruct (dget pk (rev (commits (snd (repo_step st x)) xs))); [reflexivity|].
    destruct x as [ks|o|o i k]; [reflexivity| |reflexivity].
    cbn [repo_step]. destruct (dmem o (objs st)); [|reflexivity]. cbn [commit].
    destruct (assign (objs st) (content st) o 0 (keys_of (objs st) o)) as [[u|e] h1]; [|reflexivity].
    cbn. destruct (eq_dec pk (keys_of h1 o)) as [->|n]; [apply dget_dset_same|apply dget_dset_other; congruence]. }
  intros xs pk. unfold resolve_fkey. rewrite G. destruct (dget pk (rev (commits repo0 xs))); reflexivity.
Qed.
Print Assumptions repo_last_committed.

(** A commit keeps the given keys and gives every missing one a non-negative integer above all those stored; the other
    entities are unchanged, and afterwards the entity is found under its identity. *)
Theorem repo_fresh_keys : forall xs o st', Tame repo0 xs ->
  let st := repo_run repo0 xs in
  In o (dkeys (objs st)) -> repo_step st (Commit o) = (Ok tt, st') ->
  (forall i k, nth_error (keys_of (objs st) o) i = Some k ->
     (k <> KNone -> nth_error (keys_of (objs st') o) i = Some k) /\
     (k = KNone -> exists z, nth_error (keys_of (objs st') o) i = Some (KInt z) /\ (0 <= z)%Z /\
        forall c z', In c (content st) -> nth_error (keys_of (objs st) c) i = Some (KInt z') -> (z' < z)%Z)) /\
  length (keys_of (objs st') o) = length (keys_of (objs st) o) /\
  (forall c, c <> o -> keys_of (objs st') c = keys_of (objs st) c) /\
  resolve_fkey st' (keys_of (objs st') o) = Ok o /\ In o (content st').
Proof.
  intros xs o st' t st io h. pose proof (run_inv xs repo0 inv0 t) as I. fold st in I. cbn [repo_step] in h.
  assert (d : dmem o (objs st) = true) by (apply dmem_In; exact io). rewrite d in h.
  destruct (commit_inv st o _ st' I d h) as (I' & hk & oth & _). specialize (hk eq_refl). destruct hk as [hn hi].
  destruct I as (i1 & i2 & i3 & i4 & i5).
  assert (found : dget (keys_of (objs st') o) (catalog st') = Some o).
  { cbn [commit] in h. destruct (assign (objs st) (content st) o 0 (keys_of (objs st) o)) as [[u|e] h1]; inversion h; subst. cbn. apply dget_dset_same. }
  split; [|split; [|split; [exact oth|split]]].
  - intros i k n. destruct (mem_spec _ o (content st)) as [ic|nc].
    + rewrite (hi ic). split; [intros _; exact n|]. intros ->. destruct (i5 o ic) as [_ nn]. destruct nn. eapply nth_error_In. exact n.
    + destruct (hn nc) as [_ hg]. destruct (hg i k n) as (_ & a2 & a3). split; [apply a2; lia|apply a3; lia].
  - destruct (mem_spec _ o (content st)) as [ic|nc]; [rewrite (hi ic); reflexivity|apply (hn nc)].
  - unfold resolve_fkey. rewrite found. reflexivity.
  - destruct I' as (_ & _ & _ & i4' & _). apply i4' in found. apply found.
Qed.
Print Assumptions repo_fresh_keys.

(** A commit that raises stores nothing. *)
Theorem repo_failed_commit : forall st o e, fst (repo_step st (Commit o)) = Err e ->
  content (snd (repo_step st (Commit o))) = content st /\ catalog (snd (repo_step st (Commit o))) = catalog st.
Proof.
  intros st o e. cbn [repo_step]. destruct (dmem o (objs st)); [|split; reflexivity]. cbn [commit].
  destruct (assign (objs st) (content st) o 0 (keys_of (objs st) o)) as [[u|e0] h1]; cbn; [discriminate|split; reflexivity].
Qed.
Print Assumptions repo_failed_commit.
(** It raises exactly when a key is missing and a stored entity's key at this position is not an integer, or when a stored
    entity has too few keys. *)
Theorem repo_commit_succeeds : forall xs o, Tame repo0 xs ->
  let st := repo_run repo0 xs in
  In o (dkeys (objs st)) ->
  (forall c, In c (content st) -> length (keys_of (objs st) o) <= length (keys_of (objs st) c)) ->
  (forall i c k, nth_error (keys_of (objs st) o) i = Some KNone -> In c (content st) -> nth_error (keys_of (objs st) c) i = Some k -> exists z, k = KInt z) ->
  fst (repo_step st (Commit o)) = Ok tt.
Proof.
  intros xs o t st io hl hz. pose proof (run_inv xs repo0 inv0 t) as I. fold st in I. destruct I as (i1 & i2 & i3 & i4 & i5).
  cbn [repo_step]. assert (d : dmem o (objs st) = true) by (apply dmem_In; exact io). rewrite d. cbn [commit].
  assert (col : forall h i cs, (forall c, In c cs -> i < length (keys_of h c)) -> exists l, column h i cs = Ok l /\ forall k, In k l -> exists c, In c cs /\ nth_error (keys_of h c) i = Some k).
  { intros h i. induction cs as [|c cs IH]; intros q; [exists []; split; [reflexivity|intros k []]|]. cbn.
    destruct (nth_error (keys_of h c) i) as [k|] eqn:n; [|apply nth_error_None in n; specialize (q c (or_introl eq_refl)); lia].
    destruct IH as (l & e & p); [intros c' i'; apply q; right; exact i'|]. rewrite e. cbn. exists (k :: l). split; [reflexivity|].
    intros k' [->|i']; [exists c; split; [left; reflexivity|exact n]|]. destruct (p k' i') as (c' & a & b). exists c'. split; [right; exact a|exact b]. }
  assert (nx : forall l m, (forall k, In k l -> exists z, k = KInt z) -> exists z, next_key m l = Ok z).
  { induction l as [|k l IH]; intros m q; [eexists; reflexivity|]. destruct (q k (or_introl eq_refl)) as (z & ->). cbn. apply IH. intros k' i'. apply q. right. exact i'. }
  assert (A : forall pk h i, skipn i (keys_of (objs st) o) = pk -> (forall c, In c (content st) -> keys_of h c = keys_of (objs st) c \/ ~ In KNone pk) ->
     (forall c, In c (content st) -> length (keys_of h c) = length (keys_of (objs st) c)) -> fst (assign h (content st) o i pk) = Ok tt).
  { induction pk as [|k pk IH]; intros h i sk hh hlen; cbn [assign]; [reflexivity|].
    assert (n0 : nth_error (keys_of (objs st) o) i = Some k). { replace i with (i + 0) by lia. rewrite <- nth_error_skipn, sk. reflexivity. }
    assert (sk' : skipn (S i) (keys_of (objs st) o) = pk). { eapply skipn_S. exact sk. }
    destruct (col h i (content st)) as (l & e & p).
    { intros c ic. rewrite (hlen c ic). specialize (hl c ic). assert (i < length (keys_of (objs st) o)); [apply nth_error_Some; congruence|lia]. }
    rewrite e. destruct k as [|z|s].
    - destruct (nx l (-1)%Z) as (z & ez).
      { intros k ik. destruct (p k ik) as (c & ic & nc). destruct (hh c ic) as [q|q]; [|destruct q; left; reflexivity]. rewrite q in nc. eapply hz; eassumption. }
      rewrite ez. apply IH; [exact sk'| |].
      + intros c ic. rewrite keys_dset. destruct (eq_dec c o) as [->|n]; [|destruct (hh c ic) as [q|q]; [left; exact q|right; intros j; apply q; right; exact j]].
        destruct (i5 o ic) as [_ nn]. destruct nn. eapply nth_error_In. exact n0.
      + intros c ic. rewrite keys_dset. destruct (eq_dec c o) as [->|n]; [rewrite set_nth_len; apply hlen; exact ic|apply hlen; exact ic].
    - apply IH; [exact sk'| |exact hlen]. intros c ic. destruct (hh c ic) as [q|q]; [left; exact q|right; intros j; apply q; right; exact j].
    - apply IH; [exact sk'| |exact hlen]. intros c ic. destruct (hh c ic) as [q|q]; [left; exact q|right; intros j; apply q; right; exact j]. }
  specialize (A (keys_of (objs st) o) (objs st) 0 eq_refl (fun c _ => or_introl eq_refl) (fun c _ => eq_refl)).
  destruct (assign (objs st) (content st) o 0 (keys_of (objs st) o)) as [[[]|e] h1]; [reflexivity|discriminate].
Qed.
Print Assumptions repo_commit_succeeds.

(** How a commit fails: at the first key to be given, because an entity of the repository has a text there (TypeError), or fewer keys
    (IndexError). *)
Theorem repo_commit_fails : forall st o pre post, In o (dkeys (objs st)) -> keys_of (objs st) o = pre ++ KNone :: post -> ~ In KNone pre ->
  (forall c, In c (content st) -> length pre <= length (keys_of (objs st) c)) ->
  ((exists c, In c (content st) /\ length (keys_of (objs st) c) = length pre) -> fst (repo_step st (Commit o)) = Err IndexError) /\
  ((forall c, In c (content st) -> length pre < length (keys_of (objs st) c)) ->
   (exists c s, In c (content st) /\ nth_error (keys_of (objs st) c) (length pre) = Some (KStr s)) -> fst (repo_step st (Commit o)) = Err TypeError).
Proof.
  intros st o pre post io hk np hl. cbn [repo_step]. assert (d : dmem o (objs st) = true) by (apply dmem_In; exact io). rewrite d. cbn [commit]. rewrite hk.
  set (h := objs st) in *. set (cs := content st) in *. clearbody h cs. clear d io.
  assert (col : forall i l, (forall c, In c l -> i < length (keys_of h c)) -> exists iks, column h i l = Ok iks /\ forall c k, In c l -> nth_error (keys_of h c) i = Some k -> In k iks).
  { intros i l. induction l as [|c l IH]; intros q; [exists []; split; [reflexivity|intros c k []]|]. cbn.
    destruct (nth_error (keys_of h c) i) as [k|] eqn:n; [|apply nth_error_None in n; specialize (q c (or_introl eq_refl)); lia].
    destruct IH as (iks & e & p); [intros c' i'; apply q; right; exact i'|]. rewrite e. cbn. exists (k :: iks). split; [reflexivity|].
    intros c' k' [<-|j] hn; [left; congruence|right; apply (p c' k' j hn)]. }
  assert (A : forall pre i, ~ In KNone pre -> (forall c, In c cs -> i + length pre <= length (keys_of h c)) ->
    assign h cs o i (pre ++ KNone :: post) = assign h cs o (i + length pre) (KNone :: post)).
  { clear hk hl np pre. induction pre as [|k pre IH]; intros i np hl; [cbn [length app]; rewrite Nat.add_0_r; reflexivity|].
    destruct (col i cs) as (iks & e & _); [intros c ic; specialize (hl c ic); cbn in hl; lia|].
    transitivity (assign h cs o (S i) (pre ++ KNone :: post)).
    - change ((k :: pre) ++ KNone :: post) with (k :: (pre ++ KNone :: post)). cbn [assign]. rewrite e. destruct k; [destruct np; left; reflexivity|reflexivity|reflexivity].
    - rewrite (IH (S i)); [f_equal; cbn; lia|intros j; apply np; right; exact j|intros c ic; specialize (hl c ic); cbn in hl; lia]. }
  rewrite (A pre 0 np hl). cbn [Nat.add assign]. split.
  - intros (c & ic & el). assert (E : column h (length pre) cs = Err IndexError).
    { clear -ic el. induction cs as [|c' l IH]; [destruct ic|]. cbn. destruct (nth_error (keys_of h c') (length pre)) eqn:n; [|reflexivity].
      destruct ic as [->|ic]; [assert (length pre < length (keys_of h c)) by (apply nth_error_Some; congruence); lia|]. rewrite (IH ic). reflexivity. }
    rewrite E. reflexivity.
  - intros hl' (c & s & ic & hs). destruct (col (length pre) cs hl') as (iks & e & p). rewrite e. specialize (p c (KStr s) ic hs).
    assert (N : forall m, next_key m iks = Err TypeError). { clear -p. induction iks as [|k iks IH]; intros m; [destruct p|]. destruct p as [->|p]; [reflexivity|]. destruct k; try reflexivity. cbn. apply IH. exact p. }
    rewrite N. reflexivity.
Qed.
Print Assumptions repo_commit_fails.
Example repo_commit_fails_ex : fst (repo_step (repo_run repo0 [New [KStr "a"]; Commit 0; New [KNone]]) (Commit 1)) = Err TypeError /\
  fst (repo_step (repo_run repo0 [New []; Commit 0; New [KNone]]) (Commit 1)) = Err IndexError.
Proof. split; reflexivity. Qed.
Definition hist47 := [New [KNone]; New [KNone]; New [KInt 7]; New [KNone]; New [KInt 0]; Commit 0; Commit 1; Commit 2; Commit 3; Commit 4].
Example hist47_tame : Tame repo0 hist47. Proof. cbn. tauto. Qed.
Example hist47_keys : map (keys_of (objs (repo_run repo0 hist47))) (content (repo_run repo0 hist47)) = [[KInt 0]; [KInt 1]; [KInt 7]; [KInt 8]].
Proof. reflexivity. Qed.
Example hist47_replaced : content (repo_run repo0 hist47) = [4; 1; 2; 3]. Proof. reflexivity. Qed.

(** Changing a key of a stored entity and committing it again leaves it stored under both keys *)
Theorem repo_stale_refuted : exists xs pk pk' o, pk <> pk' /\ resolve_fkey (repo_run repo0 xs) pk = Ok o /\ resolve_fkey (repo_run repo0 xs) pk' = Ok o.
Proof.
  exists [New [KInt 1]; Commit 0; SetKey 0 0 (KInt 2); Commit 0], [KInt 1], [KInt 2], 0. split; [discriminate|]. split; reflexivity.
Qed.
Print Assumptions repo_stale_refuted.
(** In a repository for one object ([many] false) committing always raises: the content is a list, which is called *)
Theorem repo_single_refuted : forall st o, fst (commit false st o) = Err TypeError.
Proof. reflexivity. Qed.
Print Assumptions repo_single_refuted.
