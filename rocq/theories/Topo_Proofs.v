From Coq Require Import Permutation Relations.
From Verif Require Import Order_Model Order_Spec.

Section TopoProofs.
  Context {A : Type} {EA : EqDec A}.

  (** direct dependency inside a prepared table (no self loops left) *)
  Definition rdep (d : deps (A := A)) (x y : A) : Prop := exists s, In (x, s) d /\ In y s.
  Definition closed (d : deps (A := A)) : Prop := forall x y, rdep d x y -> In y (dkeys d).

  Lemma set_diff_In (s t : list A) x : In x (set_diff s t) <-> In x s /\ ~ In x t.
  Proof. unfold set_diff. rewrite filter_In. destruct (mem_spec EA x t); simpl; intuition discriminate. Qed.

  Definition ready (d : deps (A := A)) : list A := dkeys (filter (fun p => isnil (snd p)) d).
  Definition shrink (d : deps (A := A)) : deps :=
    map (fun p => (fst p, set_diff (snd p) (ready d))) (filter (fun p => negb (mem (fst p) (ready d))) d).

  Lemma ready_In d x : In x (ready d) <-> In (x, []) d.
  Proof.
    unfold ready, dkeys. rewrite in_map_iff. split.
    - intros ([y s] & <- & i). apply filter_In in i. destruct i as [i h]. destruct s; [exact i|discriminate].
    - intros i. exists (x, []). split; [reflexivity|]. apply filter_In. split; [exact i|reflexivity].
  Qed.

  Lemma topo_loop_step f d : topo_loop (S f) d =
    match ready d with
    | [] => ([], match d with [] => Ok tt | _ => Err AssertionError end)
    | _ => (ready d :: fst (topo_loop f (shrink d)), snd (topo_loop f (shrink d)))
    end.
  Proof. unfold shrink. cbn [topo_loop]. fold (ready d). destruct (ready d); reflexivity. Qed.

  Lemma dkeys_shrink d : dkeys (shrink d) = filter (fun x => negb (mem x (ready d))) (dkeys d).
  Proof.
    unfold shrink, dkeys. rewrite map_map. cbn [fst]. generalize (ready d) as r. intros r.
    induction d as [|[x s] d IH]; simpl; [reflexivity|]. destruct (mem x r); simpl; rewrite IH; reflexivity.
  Qed.

  Lemma shrink_In d x s : In (x, s) (shrink d) <-> exists s0, In (x, s0) d /\ s = set_diff s0 (ready d) /\ ~ In x (ready d).
  Proof.
    unfold shrink. rewrite in_map_iff. split.
    - intros ([y s0] & e & i). apply filter_In in i. destruct i as [i h]. simpl in *. injection e as <- <-.
      exists s0. split; [exact i|]. split; [reflexivity|]. apply negb_true_iff, mem_not_In in h. exact h.
    - intros (s0 & i & -> & n). exists (x, s0). split; [reflexivity|]. apply filter_In. split; [exact i|].
      apply negb_true_iff, mem_not_In. exact n.
  Qed.

  Lemma rdep_shrink d x y : rdep (shrink d) x y <-> rdep d x y /\ ~ In x (ready d) /\ ~ In y (ready d).
  Proof.
    unfold rdep. split.
    - intros (s & i & h). apply shrink_In in i. destruct i as (s0 & i & -> & n). apply set_diff_In in h.
      split; [exists s0; tauto|tauto].
    - intros ((s & i & h) & n1 & n2). exists (set_diff s (ready d)). split; [apply shrink_In; eauto|].
      apply set_diff_In. tauto.
  Qed.

  Lemma closed_shrink d : closed d -> closed (shrink d).
  Proof. intros c x y h. apply rdep_shrink in h. destruct h as (h & n1 & n2). rewrite dkeys_shrink. apply filter_In.
         split; [apply (c x y h)|]. apply negb_true_iff, mem_not_In. exact n2. Qed.
  Lemma wf_shrink d : dwf d -> dwf (shrink d).
  Proof. unfold dwf. rewrite dkeys_shrink. apply NoDup_filter. Qed.
  Lemma ready_keys d x : In x (ready d) -> In x (dkeys d).
  Proof. rewrite ready_In. intros i. apply (in_map fst) in i. exact i. Qed.
  Lemma ready_NoDup d : dwf d -> NoDup (ready d).
  Proof.
    unfold dwf, ready, dkeys. induction d as [|[x s] d IH]; simpl; intros nd; [constructor|].
    inversion nd as [|? ? ni nd']; subst. destruct (isnil s); simpl; [|auto]. constructor; [|auto].
    intros i. apply ni. apply in_map_iff in i. destruct i as (p & <- & i). apply filter_In in i. apply in_map. tauto.
  Qed.
  Lemma length_shrink d x r : ready d = x :: r -> length (shrink d) < length d.
  Proof.
    intros e. unfold shrink. rewrite map_length.
    assert (i : In x (ready d)) by (rewrite e; left; reflexivity).
    assert (k := i). rewrite ready_In in k. apply (filter_length_lt _ _ (x, []) k).
    apply negb_false_iff. apply (mem_In EA). exact i.
  Qed.

  Lemma topo_loop_fuel : forall fuel d, length d < fuel -> snd (topo_loop fuel d) = Ok tt \/ snd (topo_loop fuel d) = Err AssertionError.
  Proof.
    induction fuel as [|f IH]; intros d h; [lia|]. rewrite topo_loop_step.
    destruct (ready d) as [|x r] eqn:e; simpl; [destruct d; auto|]. apply IH. pose proof (length_shrink _ _ _ e). lia.
  Qed.

  Lemma topo_loop_keys : forall fuel d x, In x (concat (fst (topo_loop fuel d))) -> In x (dkeys d).
  Proof.
    induction fuel as [|f IH]; intros d x; [simpl; tauto|]. rewrite topo_loop_step.
    destruct (ready d) as [|y r] eqn:e; [simpl; tauto|]. rewrite <- e. cbn [fst concat]. rewrite in_app_iff.
    intros [h|h]; [apply ready_keys; exact h|]. apply IH in h. rewrite dkeys_shrink in h. apply filter_In in h. tauto.
  Qed.

  Lemma topo_loop_NoDup : forall fuel d, dwf d -> NoDup (concat (fst (topo_loop fuel d))).
  Proof.
    induction fuel as [|f IH]; intros d wf; [constructor|]. rewrite topo_loop_step.
    destruct (ready d) as [|y r] eqn:e; [constructor|]. rewrite <- e. cbn [fst concat]. apply NoDup_app_intro.
    - apply ready_NoDup, wf.
    - apply IH, wf_shrink, wf.
    - intros x h1 h2. apply topo_loop_keys in h2. rewrite dkeys_shrink in h2. apply filter_In in h2. destruct h2 as [_ h2].
      apply negb_true_iff, mem_not_In in h2. tauto.
  Qed.

  Lemma topo_loop_nonempty : forall fuel d l, In l (fst (topo_loop fuel d)) -> l <> [].
  Proof.
    induction fuel as [|f IH]; intros d l; [simpl; tauto|]. rewrite topo_loop_step.
    destruct (ready d) as [|y r] eqn:e; [simpl; tauto|]. cbn [fst]. intros [<-|h]; [discriminate|]. eapply IH; exact h.
  Qed.

  (** dependencies are in strictly earlier layers *)
  Lemma topo_loop_order : forall fuel d pre l post x y,
    dwf d -> fst (topo_loop fuel d) = pre ++ l :: post -> In x l -> rdep d x y -> In y (concat pre).
  Proof.
    induction fuel as [|f IH]; intros d pre l post x y wf e ix h; [destruct pre; discriminate|].
    rewrite topo_loop_step in e. destruct (ready d) as [|z r] eqn:er; [destruct pre; discriminate|]. rewrite <- er in e.
    cbn [fst] in e. destruct pre as [|p pre]; simpl in e; injection e as e1 e2.
    - subst l. exfalso. rewrite ready_In in ix. destruct h as (s & i & hy).
      assert (es : Some s = Some []) by (rewrite <- (In_dget _ _ _ wf i), <- (In_dget _ _ _ wf ix); reflexivity).
      injection es as ->. destruct hy.
    - subst p. simpl. rewrite in_app_iff. destruct (mem_spec EA y (ready d)) as [i|n]; [left; exact i|right].
      apply (IH (shrink d) pre l post x y); [apply wf_shrink, wf|exact e2|exact ix|]. apply rdep_shrink.
      split; [exact h|]. split; [|exact n].
      assert (k : In x (concat (fst (topo_loop f (shrink d))))).
      { rewrite e2, concat_app, in_app_iff. right. simpl. rewrite in_app_iff. left. exact ix. }
      apply topo_loop_keys in k. rewrite dkeys_shrink in k. apply filter_In in k. destruct k as [_ k].
      apply negb_true_iff, mem_not_In in k. exact k.
  Qed.

  (** an item of a later layer has a dependency in the layer just before *)
  Lemma topo_loop_tight : forall fuel d pre l0 l post x,
    fst (topo_loop fuel d) = pre ++ l0 :: l :: post -> In x l -> exists y, In y l0 /\ rdep d x y.
  Proof.
    induction fuel as [|f IH]; intros d pre l0 l post x e ix; [destruct pre; discriminate|].
    rewrite topo_loop_step in e. destruct (ready d) as [|z r] eqn:er; [destruct pre; discriminate|]. rewrite <- er in e.
    cbn [fst] in e. destruct pre as [|p pre]; simpl in e; injection e as e1 e2.
    - destruct f as [|f]; [discriminate|]. rewrite topo_loop_step in e2.
      destruct (ready (shrink d)) as [|w q] eqn:es; [discriminate|]. cbn [fst] in e2. rewrite <- es in e2.
      injection e2 as e2 e3. subst l l0. rewrite ready_In in ix. apply shrink_In in ix. destruct ix as (s0 & i & hs & n).
      destruct s0 as [|y s0]; [destruct n; apply ready_In; exact i|].
      exists y. assert (k : ~ In y (set_diff (y :: s0) (ready d))) by (rewrite <- hs; simpl; tauto).
      rewrite set_diff_In in k. split; [|exists (y :: s0); simpl; auto].
      destruct (mem_spec EA y (ready d)) as [iy|ny]; [exact iy|]. destruct k. simpl. tauto.
    - destruct (IH (shrink d) pre l0 l post x e2 ix) as (y & iy & h). exists y. split; [exact iy|]. apply rdep_shrink in h. tauto.
  Qed.

  Lemma topo_loop_complete : forall fuel d, snd (topo_loop fuel d) = Ok tt ->
    forall x, In x (dkeys d) -> In x (concat (fst (topo_loop fuel d))).
  Proof.
    induction fuel as [|f IH]; intros d h x ix; [discriminate|]. rewrite topo_loop_step in *.
    destruct (ready d) as [|z r] eqn:er; [destruct d; [destruct ix|discriminate]|]. rewrite <- er in *. cbn [fst snd] in *.
    simpl. rewrite in_app_iff. destruct (mem_spec EA x (ready d)) as [i|n]; [auto|right]. apply IH; [exact h|].
    rewrite dkeys_shrink. apply filter_In. split; [exact ix|]. apply negb_true_iff, mem_not_In. exact n.
  Qed.

  (** what is left when the loop stops: a non-empty set where every item depends on another one *)
  Lemma topo_loop_stuck : forall fuel d, dwf d -> closed d -> snd (topo_loop fuel d) = Err AssertionError ->
    (exists x, In x (dkeys d) /\ ~ In x (concat (fst (topo_loop fuel d)))) /\
    (forall x, In x (dkeys d) -> ~ In x (concat (fst (topo_loop fuel d))) ->
       exists y, rdep d x y /\ In y (dkeys d) /\ ~ In y (concat (fst (topo_loop fuel d)))).
  Proof.
    induction fuel as [|f IH]; intros d wf cl h; [discriminate|]. rewrite topo_loop_step in *.
    destruct (ready d) as [|z r] eqn:er.
    - cbn [fst snd concat] in *. destruct d as [|[x s] d]; [discriminate|]. split; [exists x; simpl; tauto|].
      intros u iu _. destruct (dkeys_dget u ((x, s) :: d) iu) as (su & e). apply dget_In in e.
      destruct su as [|y su].
      + assert (k : In u (ready ((x, s) :: d))) by (apply ready_In; exact e). rewrite er in k. destruct k.
      + exists y. assert (k : rdep ((x, s) :: d) u y) by (exists (y :: su); simpl; auto).
        split; [exact k|]. split; [apply (cl u y k)|tauto].
    - rewrite <- er in *. cbn [fst snd] in *. destruct (IH (shrink d) (wf_shrink _ wf) (closed_shrink _ cl) h) as [(x & ix & nx) hs].
      assert (split_in : forall x, In x (dkeys d) -> ~ In x (concat (ready d :: fst (topo_loop f (shrink d)))) ->
                         In x (dkeys (shrink d)) /\ ~ In x (concat (fst (topo_loop f (shrink d))))).
      { intros u iu nu. cbn [concat] in nu. rewrite in_app_iff in nu. split; [|tauto]. rewrite dkeys_shrink. apply filter_In.
        split; [exact iu|]. apply negb_true_iff, mem_not_In. tauto. }
      assert (split_out : forall x, In x (dkeys (shrink d)) -> ~ In x (concat (fst (topo_loop f (shrink d)))) ->
                          In x (dkeys d) /\ ~ In x (concat (ready d :: fst (topo_loop f (shrink d))))).
      { intros u iu nu. rewrite dkeys_shrink in iu. apply filter_In in iu. destruct iu as [iu nr]. split; [exact iu|].
        cbn [concat]. rewrite in_app_iff. apply negb_true_iff, mem_not_In in nr. tauto. }
      split; [exists x; apply split_out; assumption|]. intros u iu nu. destruct (split_in u iu nu) as [iu' nu'].
      destruct (hs u iu' nu') as (y & hy & iy & ny). exists y. split; [apply rdep_shrink in hy; tauto|]. apply split_out; assumption.
  Qed.

  (** ** walking inside a finite set where everybody has a successor finds a cycle *)
  Inductive Walk (R : A -> A -> Prop) : list A -> Prop :=
  | W_one x : Walk R [x]
  | W_cons x y l : R x y -> Walk R (y :: l) -> Walk R (x :: y :: l).

  Lemma Walk_reach (R : A -> A -> Prop) a l y m : Walk R (a :: l ++ y :: m) -> clos_trans A R a y.
  Proof.
    revert a. induction l as [|b l IH]; intros a h; simpl in h.
    - inversion h; subst. apply t_step. assumption.
    - inversion h; subst. eapply t_trans; [apply t_step; eassumption|]. apply IH. assumption.
  Qed.
  Lemma Walk_tail (R : A -> A -> Prop) a l : Walk R (a :: l) -> l <> [] -> Walk R l.
  Proof. intros h n. inversion h; subst; [congruence|assumption]. Qed.
  Lemma Walk_suffix (R : A -> A -> Prop) p a l : Walk R (p ++ a :: l) -> Walk R (a :: l).
  Proof. induction p as [|b p IH]; simpl; [auto|]. intros h. apply IH. apply (Walk_tail _ b); [exact h|]. destruct p; discriminate. Qed.

  Lemma Walk_long (R : A -> A -> Prop) (S : list A) : (forall x, In x S -> exists y, R x y /\ In y S) ->
    forall n x, In x S -> exists l, Walk R (x :: l) /\ length l = n /\ (forall y, In y (x :: l) -> In y S).
  Proof.
    intros h. induction n as [|n IH]; intros x ix.
    - exists []. split; [constructor|]. split; [reflexivity|]. intros y [<-|[]]. exact ix.
    - destruct (h x ix) as (y & r & iy). destruct (IH y iy) as (l & w & e & sub). exists (y :: l).
      split; [constructor; assumption|]. split; [simpl; congruence|]. intros z [<-|i]; [exact ix|auto].
  Qed.

  Lemma not_NoDup_split (l : list A) : ~ NoDup l -> exists p x q r, l = p ++ x :: q ++ x :: r.
  Proof.
    induction l as [|x l IH]; intros h; [destruct h; constructor|].
    destruct (mem_spec EA x l) as [i|n].
    - apply in_split in i. destruct i as (q & r & ->). exists [], x, q, r. reflexivity.
    - destruct IH as (p & y & q & r & ->); [intros nd; apply h; constructor; assumption|]. exists (x :: p), y, q, r. reflexivity.
  Qed.

  Lemma stuck_has_cycle (R : A -> A -> Prop) (S : list A) : (forall x, In x S -> exists y, R x y /\ In y S) ->
    forall x, In x S -> exists y, clos_refl_trans A R x y /\ clos_trans A R y y.
  Proof.
    intros h x ix. destruct (Walk_long R S h (length S) x ix) as (l & w & e & sub).
    destruct (not_NoDup_split (x :: l)) as (p & y & q & r & es).
    - intros nd. pose proof (NoDup_incl_length nd sub) as k. simpl in k. lia.
    - exists y. rewrite es in w. split.
      + destruct p as [|a p]; simpl in es; injection es as e1 e2; subst; [apply rt_refl|].
        apply Walk_reach in w.
        clear -w. induction w; [apply rt_step; assumption|eapply rt_trans; eassumption].
      + apply Walk_suffix in w. eapply Walk_reach. exact w.
  Qed.

  (** ** the prepared table *)
  Lemma In_discard d x s : In (x, s) (topo_discard d) <->
    exists s0, In (x, s0) d /\ s = filter (fun y => negb (beq y x)) s0.
  Proof.
    unfold topo_discard. rewrite in_map_iff. split.
    - intros ([y s0] & e & i). simpl in e. injection e as <- <-. eauto.
    - intros (s0 & i & ->). exists (x, s0). auto.
  Qed.
  Lemma dkeys_discard (d : deps (A := A)) : dkeys (topo_discard d) = dkeys d.
  Proof. unfold topo_discard, dkeys. rewrite map_map. reflexivity. Qed.
  Lemma rdep_discard d x y : rdep (topo_discard d) x y <-> Dep d x y.
  Proof.
    unfold rdep, Dep. split.
    - intros (s & i & h). apply In_discard in i. destruct i as (s0 & i & ->). apply filter_In in h. destruct h as [h n].
      split; [exists s0; auto|]. destruct (beq_spec EA y x); [discriminate|assumption].
    - intros ((s & i & h) & n). exists (filter (fun z => negb (beq z x)) s). split; [apply In_discard; eauto|].
      apply filter_In. split; [exact h|]. destruct (beq_spec EA y x); [congruence|reflexivity].
  Qed.
  Lemma In_extra d x : In x (topo_extra d) <-> (exists z, rdep d z x) /\ ~ In x (dkeys d).
  Proof.
    unfold topo_extra. rewrite set_diff_In, dedup_In, in_flat_map. split.
    - intros (([z s] & i & h) & n). split; [exists z, s; auto|exact n].
    - intros ((z & s & i & h) & n). split; [exists (z, s); auto|exact n].
  Qed.
  Lemma rdep_prepare d x y : rdep (topo_prepare d) x y <-> Dep d x y.
  Proof.
    rewrite <- rdep_discard. unfold topo_prepare, rdep. split.
    - intros (s & i & h). apply in_app_iff in i. destruct i as [i|i]; [eauto|]. apply in_map_iff in i.
      destruct i as (z & e & _). injection e as <- <-. destruct h.
    - intros (s & i & h). exists s. rewrite in_app_iff. auto.
  Qed.
  Lemma dkeys_prepare (d : deps (A := A)) : dkeys (topo_prepare d) = dkeys d ++ topo_extra (topo_discard d).
  Proof. unfold topo_prepare, dkeys. rewrite map_app, map_map. cbn [fst]. rewrite map_id.
         fold (dkeys (topo_discard d)). rewrite dkeys_discard. reflexivity. Qed.
  Lemma prepare_Node d x : In x (dkeys (topo_prepare d)) <-> Node d x.
  Proof.
    rewrite dkeys_prepare, in_app_iff, In_extra, dkeys_discard. unfold Node. fold (dkeys d). split.
    - intros [h|((z & h) & n)]; [auto|]. apply rdep_discard in h. destruct h as ((s & i & h) & _). right. eauto.
    - intros [h|(z & s & i & h)]; [auto|]. destruct (mem_spec EA x (dkeys d)) as [ix|nx]; [auto|]. right. split; [|exact nx].
      exists z. apply rdep_discard. split; [exists s; auto|]. intros ->. apply nx. apply (in_map fst) in i. exact i.
  Qed.
  Lemma prepare_wf d : dwf d -> dwf (topo_prepare d).
  Proof.
    unfold dwf. rewrite dkeys_prepare. intros nd. apply NoDup_app_intro; [exact nd| |].
    - unfold topo_extra, set_diff. apply NoDup_filter, dedup_NoDup.
    - intros x h1 h2. apply In_extra in h2. rewrite dkeys_discard in h2. tauto.
  Qed.
  Lemma prepare_closed d : closed (topo_prepare d).
  Proof. intros x y h. apply prepare_Node. apply rdep_prepare in h. destruct h as ((s & i & h) & _). right. eauto. Qed.

  (** the generator on a non-empty table *)
  Lemma topo_unfold (d : deps (A := A)) :
    topological_sort d = topo_loop (S (length (topo_prepare d))) (topo_prepare d).
  Proof. destruct d as [|p d]; [reflexivity|]. reflexivity. Qed.

  Lemma topo_layers (d : deps (A := A)) : dwf d ->
    NoDup (concat (fst (topological_sort d))) /\
    (forall l, In l (fst (topological_sort d)) -> l <> []) /\
    (forall pre l post x y, fst (topological_sort d) = pre ++ l :: post -> In x l -> Dep d x y -> In y (concat pre)) /\
    (forall pre l0 l post x, fst (topological_sort d) = pre ++ l0 :: l :: post -> In x l -> exists y, In y l0 /\ Dep d x y).
  Proof.
    intros wf. rewrite topo_unfold. split; [apply topo_loop_NoDup, prepare_wf, wf|]. split; [apply topo_loop_nonempty|]. split.
    - intros pre l post x y e ix h. apply rdep_prepare in h. exact (topo_loop_order _ _ _ _ _ _ _ (prepare_wf _ wf) e ix h).
    - intros pre l0 l post x e ix. destruct (topo_loop_tight _ _ _ _ _ _ _ e ix) as (y & iy & h). exists y.
      split; [exact iy|]. apply rdep_prepare. exact h.
  Qed.

  Lemma topo_outcome (d : deps (A := A)) : snd (topological_sort d) = Ok tt \/ snd (topological_sort d) = Err AssertionError.
  Proof. rewrite topo_unfold. apply topo_loop_fuel. lia. Qed.

  (** position of the layer of an item decreases along dependencies *)
  Lemma layer_rank (d : deps (A := A)) : dwf d ->
    forall n x, (exists pre l post, fst (topological_sort d) = pre ++ l :: post /\ length pre = n /\ In x l) ->
    forall y, clos_trans A (Dep d) x y -> exists pre l post, fst (topological_sort d) = pre ++ l :: post /\ length pre < n /\ In y l.
  Proof.
    intros wf n x (pre & l & post & e & en & ix) y h. destruct (topo_layers d wf) as (nd & _ & ord & _).
    assert (step : forall pre l post x y, fst (topological_sort d) = pre ++ l :: post -> In x l -> Dep d x y ->
              exists pre' l' post', fst (topological_sort d) = pre' ++ l' :: post' /\ length pre' < length pre /\ In y l').
    { clear -ord. intros pre l post x y e ix hd. pose proof (ord _ _ _ _ _ e ix hd) as iy. apply in_concat in iy.
      destruct iy as (l' & il & iy). apply in_split in il. destruct il as (p & q & ->).
      exists p, l', (q ++ l :: post). rewrite e, <- app_assoc. split; [reflexivity|]. split; [rewrite app_length; simpl; lia|exact iy]. }
    subst n. apply clos_trans_t1n in h. revert pre l post e ix. induction h as [x y hd|x z y hd h IH]; intros pre l post e ix.
    - eapply step; eassumption.
    - destruct (step _ _ _ _ _ e ix hd) as (pre' & l' & post' & e' & lt & iz).
      destruct (IH _ _ _ e' iz) as (p2 & l2 & q2 & e2 & lt2 & iy). exists p2, l2, q2. split; [exact e2|]. split; [lia|exact iy].
  Qed.

  Lemma in_concat_split {B} (ls : list (list B)) x : In x (concat ls) -> exists pre l post, ls = pre ++ l :: post /\ In x l.
  Proof. intros h. apply in_concat in h. destruct h as (l & il & ix). apply in_split in il. destruct il as (p & q & ->). eauto. Qed.

  Lemma layered_no_cycle (d : deps (A := A)) : dwf d -> forall x, In x (concat (fst (topological_sort d))) -> ~ DependsOnCycle d x.
  Proof.
    intros wf x ix (y & hxy & hyy).
    assert (same : forall pre l post pre' l' post' (z : A), fst (topological_sort d) = pre ++ l :: post ->
       fst (topological_sort d) = pre' ++ l' :: post' -> In z l -> In z l' -> length pre' < length pre -> False).
    { intros pre l post pre' l' post' z e e' iz iz' lt. destruct (topo_layers d wf) as (nd & _). rewrite e in nd.
      rewrite e in e'. assert (k : exists m, pre = pre' ++ l' :: m).
      { clear -e' lt. revert pre' e' lt. induction pre as [|a pre IH]; intros pre' e' lt; simpl in lt; [lia|].
        destruct pre' as [|b pre']; simpl in e'; injection e' as e1 e2.
        - exists pre. subst. reflexivity.
        - subst b. destruct (IH _ e2) as (m & ->); [simpl in lt; lia|]. exists m. reflexivity. }
      destruct k as (m & ->). rewrite concat_app in nd. clear -nd iz iz'.
      assert (i1 : In z (concat (pre' ++ l' :: m))) by (rewrite concat_app, in_app_iff; simpl; rewrite in_app_iff; auto).
      assert (i2 : In z (concat (l :: post))) by (simpl; rewrite in_app_iff; auto).
      revert nd i1 i2. generalize (concat (pre' ++ l' :: m)), (concat (l :: post)). clear. intros a b nd i1 i2.
      induction a as [|u a IH]; [destruct i1|]. simpl in nd. inversion nd as [|? ? ni nd']; subst.
      destruct i1 as [->|i1]; [apply ni; rewrite in_app_iff; auto|auto]. }
    assert (iy : exists pre l post, fst (topological_sort d) = pre ++ l :: post /\ In y l).
    { destruct (in_concat_split _ _ ix) as (pre & l & post & e & il).
      assert (cases : x = y \/ clos_trans A (Dep d) x y).
      { clear -hxy. apply clos_rt_rt1n in hxy. destruct hxy as [|z y h1 h2]; [auto|right].
        apply clos_rt1n_rt in h2. clear -h1 h2. revert h1. apply clos_rt_rtn1 in h2. induction h2 as [|y w h _ IH]; intros h1.
        - apply t_step, h1. - eapply t_trans; [apply IH, h1|apply t_step, h]. }
      destruct cases as [->|h]; [eauto|].
      destruct (layer_rank d wf (length pre) x) with (y := y) as (p & l' & q & e' & _ & i'); [eauto 6|exact h|eauto]. }
    destruct iy as (pre & l & post & e & il).
    destruct (layer_rank d wf (length pre) y) with (y := y) as (p & l' & q & e' & lt & i'); [eauto 6|exact hyy|].
    eapply (same pre l post p l' q y); eassumption.
  Qed.

  Lemma clos_trans_ext (R S : A -> A -> Prop) : (forall x y, R x y -> S x y) -> forall x y, clos_trans A R x y -> clos_trans A S x y.
  Proof. intros h x y. induction 1; [apply t_step; auto|eapply t_trans; eassumption]. Qed.
  Lemma clos_rt_ext (R S : A -> A -> Prop) : (forall x y, R x y -> S x y) -> forall x y, clos_refl_trans A R x y -> clos_refl_trans A S x y.
  Proof. intros h x y. induction 1; [apply rt_step; auto|apply rt_refl|eapply rt_trans; eassumption]. Qed.

  Lemma topo_yields_iff (d : deps (A := A)) : dwf d -> forall x,
    In x (concat (fst (topological_sort d))) <-> Node d x /\ ~ DependsOnCycle d x.
  Proof.
    intros wf x. split.
    - intros ix. split; [|apply layered_no_cycle; assumption]. rewrite topo_unfold in ix. apply topo_loop_keys in ix. apply prepare_Node. exact ix.
    - intros [nx nc]. apply prepare_Node in nx. destruct (topo_outcome d) as [o|o]; rewrite topo_unfold in *.
      + apply topo_loop_complete; assumption.
      + match goal with |- In x ?l => destruct (mem_spec EA x l) as [i|n]; [exact i|exfalso] end. apply nc.
        destruct (topo_loop_stuck _ _ (prepare_wf _ wf) (prepare_closed d) o) as [_ hs].
        set (ls := concat (fst (topo_loop (S (length (topo_prepare d))) (topo_prepare d)))) in *.
        destruct (stuck_has_cycle (rdep (topo_prepare d)) (filter (fun z => negb (mem z ls)) (dkeys (topo_prepare d)))) with (x := x) as (y & h1 & h2).
        * intros z iz. apply filter_In in iz. destruct iz as [iz nz]. apply negb_true_iff, mem_not_In in nz.
          destruct (hs z iz nz) as (y & hy & iy & ny). exists y. split; [exact hy|]. apply filter_In. split; [exact iy|].
          apply negb_true_iff, mem_not_In. exact ny.
        * apply filter_In. split; [exact nx|]. apply negb_true_iff, mem_not_In. exact n.
        * exists y. split; [eapply clos_rt_ext; [|exact h1]|eapply clos_trans_ext; [|exact h2]]; intros; apply rdep_prepare; assumption.
  Qed.

  Lemma topo_ok_iff (d : deps (A := A)) : dwf d ->
    (snd (topological_sort d) = Ok tt <-> ~ exists x, Cyclic d x) /\
    (snd (topological_sort d) = Err AssertionError <-> exists x, Cyclic d x).
  Proof.
    intros wf.
    assert (f1 : snd (topological_sort d) = Ok tt -> ~ exists x, Cyclic d x).
    { intros o (x & hc). assert (nx : Node d x).
      { assert (g : forall a b, clos_trans_1n A (Dep d) a b -> Node d a).
        { intros a b hab. destruct hab as [y h|y z h _]; destruct h as ((s & i & _) & _); left; apply (in_map fst) in i; exact i. }
        apply (g x x). apply clos_trans_t1n. exact hc. }
      assert (ix : In x (concat (fst (topological_sort d)))).
      { rewrite topo_unfold in *. apply topo_loop_complete; [exact o|]. apply prepare_Node. exact nx. }
      apply (layered_no_cycle d wf x ix). exists x. split; [apply rt_refl|exact hc]. }
    assert (f2 : snd (topological_sort d) = Err AssertionError -> exists x, Cyclic d x).
    { intros o. rewrite topo_unfold in o. destruct (topo_loop_stuck _ _ (prepare_wf _ wf) (prepare_closed d) o) as [(x & ix & nx) hs].
      set (ls := concat (fst (topo_loop (S (length (topo_prepare d))) (topo_prepare d)))) in *.
      destruct (stuck_has_cycle (rdep (topo_prepare d)) (filter (fun z => negb (mem z ls)) (dkeys (topo_prepare d)))) with (x := x) as (y & h1 & h2).
      - intros z iz. apply filter_In in iz. destruct iz as [iz nz]. apply negb_true_iff, mem_not_In in nz.
        destruct (hs z iz nz) as (y & hy & iy & ny). exists y. split; [exact hy|]. apply filter_In. split; [exact iy|].
        apply negb_true_iff, mem_not_In. exact ny.
      - apply filter_In. split; [exact ix|]. apply negb_true_iff, mem_not_In. exact nx.
      - exists y. eapply clos_trans_ext; [|exact h2]. intros; apply rdep_prepare; assumption. }
    destruct (topo_outcome d) as [o|o]; rewrite o; split; split; intros h; try reflexivity; try discriminate; auto.
    - destruct (f1 o h). - destruct (h (f2 o)).
  Qed.
End TopoProofs.
