From Verif Require Import Query_Model Query_Spec Str_Proofs Coll_Proofs.

(** * criteria parsing *)
Lemma take_ops_spec : forall l ops, exists sfx, snd (take_ops l ops) = rev sfx ++ ops /\ l = sfx ++ rev (fst (take_ops l ops)) /\
  (forall e, In e sfx -> is_operator e = true) /\
  (forall e, hd_error (rev (fst (take_ops l ops))) = Some e -> is_operator e = false).
Proof.
  induction l as [|e es IH]; intros ops; simpl.
  - exists []. simpl. repeat split; intros ? h; [destruct h|discriminate].
  - destruct (is_operator e) eqn:ee.
    + destruct (IH (e :: ops)) as (sfx & h1 & h2 & h3 & h4). exists (e :: sfx). repeat split.
      * rewrite h1. simpl. rewrite <- app_assoc. reflexivity.
      * simpl. f_equal. exact h2.
      * intros x [<-|i]; [exact ee|apply h3, i].
      * exact h4.
    + exists []. simpl. repeat split.
      * rewrite rev_app_distr, rev_involutive. reflexivity.
      * intros ? [].
      * intros x h. rewrite rev_app_distr, rev_involutive in h. simpl in h. injection h as <-. exact ee.
Qed.

Lemma split_on_loop_ne fuel sep s : split_on_loop fuel sep s <> [].
Proof.
  destruct fuel; simpl; [discriminate|]. destruct (is_prefix sep s); [discriminate|]. destruct s; [discriminate|].
  destruct (split_on_loop fuel sep s); discriminate.
Qed.
Lemma ljoin_cons (sep w : list ascii) (ws : list (list ascii)) : ws <> [] -> ljoin sep (w :: ws) = w ++ sep ++ ljoin sep ws.
Proof. destruct ws; [contradiction|reflexivity]. Qed.
Lemma split_on_join sep : sep <> [] -> forall fuel s, length s < fuel -> ljoin sep (split_on_loop fuel sep s) = s.
Proof.
  intros ne. induction fuel as [|f IH]; intros s h; [lia|]. cbn [split_on_loop].
  destruct (is_prefix sep s) eqn:e.
  - apply is_prefix_spec in e. destruct e as [r ->]. rewrite ljoin_cons by apply split_on_loop_ne.
    rewrite skipn_app, skipn_all, Nat.sub_diag. simpl. rewrite IH; [reflexivity|].
    rewrite app_length in h. destruct sep; [contradiction|]. simpl in h. lia.
  - destruct s as [|x s']; [reflexivity|]. simpl in h. specialize (IH s' ltac:(lia)).
    destruct (split_on_loop f sep s') as [|w ws] eqn:es; [destruct (split_on_loop_ne f sep s' es)|].
    destruct ws; [simpl in *; congruence|]. rewrite ljoin_cons in * by discriminate. cbn [app]. f_equal. exact IH.
Qed.
(** no piece contains the separator *)
Lemma split_on_free sep : sep <> [] -> forall fuel s, length s < fuel ->
  forall w a b, In w (split_on_loop fuel sep s) -> w <> a ++ sep ++ b.
Proof.
  intros ne fuel s h.
  assert (G : forall w, In w (split_on_loop fuel sep s) -> forall a b, w <> a ++ sep ++ b); [|intros; auto].
  revert s h. induction fuel as [|f IH]; intros s h; [lia|]. cbn [split_on_loop].
  destruct (is_prefix sep s) eqn:e.
  - apply is_prefix_spec in e. destruct e as [r ->]. rewrite skipn_app, skipn_all, Nat.sub_diag.
    intros w [<-|i] a b; [destruct a, sep; try discriminate; contradiction|].
    refine (IH _ _ w i a b). simpl. rewrite app_length in h. destruct sep; [contradiction|]. simpl in h. lia.
  - destruct s as [|x s'].
    + intros w [<-|[]] a b. destruct a, sep; try discriminate; contradiction.
    + simpl in h. pose proof (IH s' ltac:(lia)) as IH'.
      pose proof (split_on_join sep ne f s' ltac:(lia)) as J.
      destruct (split_on_loop f sep s') as [|w ws] eqn:es; [destruct (split_on_loop_ne f sep s' es)|].
      intros u [<-|i] a b; [|apply IH'; right; exact i].
      destruct a as [|y a].
      * intros eq. simpl in eq. apply is_prefix_false with (r := b ++ match ws with [] => [] | _ => sep ++ ljoin sep ws end) in e.
        apply e. rewrite <- J. destruct ws.
        -- simpl. rewrite app_nil_r. exact eq.
        -- rewrite ljoin_cons by discriminate. rewrite app_comm_cons, eq, <- app_assoc. reflexivity.
      * intros eq. injection eq as _ eq. exact (IH' w (or_introl eq_refl) a b eq).
Qed.

(** * one object *)
Section Ops.
  Variable apply_op : string -> pyval -> pyval -> res pyval.
  Notation CritHolds := (CritHolds apply_op).
  Notation CritFails := (CritFails apply_op).
  Notation CritDecided := (CritDecided apply_op).

  Lemma OpChain_ops ops a b r : OpChain apply_op ops a b r <-> apply_ops apply_op ops a b = Ok r.
  Proof.
    split.
    - induction 1 as [|op ops a b a' r h _ IH]; simpl; [reflexivity|]. rewrite h. exact IH.
    - revert a. induction ops as [|op ops IH]; intros a h; simpl in h.
      + injection h as <-. constructor.
      + destruct (apply_op op a b) as [a'|] eqn:e; [|discriminate]. econstructor; [exact e|]. apply IH, h.
  Qed.

  Lemma holds_not_fails obj c : CritHolds obj c -> CritFails obj c -> False.
  Proof.
    intros (o & r & g & n & ch & t) [m|(o' & r' & g' & n' & ch' & t')].
    - unfold CritMissing in m. congruence.
    - assert (o' = o) by congruence. subst o'. apply OpChain_ops in ch, ch'. assert (r' = r) by congruence. subst r'.
      rewrite t in t'. destruct (c_neg c); discriminate.
  Qed.

  Lemma crit_eta c : {| c_ks := c_ks c; c_ops := c_ops c; c_neg := c_neg c; c_val := c_val c |} = c.
  Proof. destruct c; reflexivity. Qed.

  Lemma crit_step_plain any_of obj test c : CritPlain obj c -> CritDecided obj c ->
    (CritHolds obj c /\ crit_step apply_op any_of obj test c = Ok (if any_of then true else test, c, if any_of then true else negb test)) \/
    (CritMissing obj c /\ crit_step apply_op any_of obj test c = Ok (false, c, true)) \/
    (CritFails obj c /\ ~ CritMissing obj c /\
       crit_step apply_op any_of obj test c = Ok (if any_of then test else false, c, if any_of then false else true)).
  Proof.
    intros pl dec. unfold CritDecided in dec.
    assert (K : forall o b, get_descendant obj (path_keys (c_ks c)) = Ok o -> o <> VNone ->
                (exists r, OpChain apply_op (test_ops c) o (c_val c) r /\ (if c_neg c then negb (truthy r) else truthy r) = b) ->
                crit_step apply_op any_of obj test c =
                Ok (if any_of then test || b else test && b, c, if any_of then b else negb (test && b))).
    { intros o b g n (r & ch & t). unfold crit_step. rewrite g. cbn [rbind].
      assert (P : (match c_ops c with
          | [] => (o, c_ks c, c_ops c, test)
          | _ => if is_mapping o then child_loop 0 o (c_ks c) (c_ops c) test
                 else (o, c_ks c, c_ops c, test)
          end) = (o, c_ks c, c_ops c, test)).
      { destruct pl as [pl|pl]; [rewrite pl; reflexivity|]. rewrite (pl o g). destruct (c_ops c); reflexivity. }
      assert (Q : apply_ops_test apply_op (match c_ops c with [] => ["eq"%string] | _ => c_ops c end) (c_neg c) o (c_val c) = Ok b).
      { unfold apply_ops_test. apply OpChain_ops in ch. unfold test_ops in ch.
        assert (X : (match c_ops c with [] => ["eq"%string] | _ => c_ops c end) = match c_ops c with [] => ["eq"%string] | s :: l => s :: l end)
          by (destruct (c_ops c); reflexivity).
        rewrite X, ch. cbn [rbind]. rewrite t. reflexivity. }
      destruct o; try contradiction; rewrite P; rewrite Q; cbn [rbind]; rewrite crit_eta; destruct any_of; reflexivity. }
    destruct dec as [(o & r & g & n & ch & t)|[m|(o & r & g & n & ch & t)]].
    - left. split; [exists o, r; auto|]. rewrite (K o true g n).
      + destruct any_of, test; reflexivity.
      + exists r. split; [exact ch|]. rewrite t. destruct (c_neg c); reflexivity.
    - right; left. split; [exact m|]. unfold crit_step. rewrite m. reflexivity.
    - right; right. split; [right; exists o, r; auto|]. split; [unfold CritMissing; congruence|]. rewrite (K o false g n).
      + destruct any_of, test; reflexivity.
      + exists r. split; [exact ch|]. rewrite t. destruct (c_neg c); reflexivity.
  Qed.

  Lemma crit_loop_all obj cs : (forall c, In c cs -> CritPlain obj c /\ CritDecided obj c) ->
    exists b, crit_loop apply_op false obj true cs = Ok (b, cs) /\ (b = true <-> forall c, In c cs -> CritHolds obj c).
  Proof.
    induction cs as [|c cs IH]; intros h; simpl.
    - exists true. split; [reflexivity|]. split; [intros _ ? []|reflexivity].
    - destruct (h c (or_introl eq_refl)) as [pl dc].
      destruct (crit_step_plain false obj true c pl dc) as [[ho ->]|[[m ->]|(fa & _ & ->)]]; simpl.
      + destruct IH as (b & -> & hb); [intros; apply h; right; assumption|]. exists b. split; [reflexivity|].
        rewrite hb. split; [intros g c' [<-|i]; [exact ho|apply g, i]|intros g c' i; apply g; right; exact i].
      + exists false. split; [reflexivity|]. split; [discriminate|]. intros g. destruct (holds_not_fails obj c); [apply g; left; reflexivity|left; exact m].
      + exists false. split; [reflexivity|]. split; [discriminate|]. intros g. destruct (holds_not_fails obj c); [apply g; left; reflexivity|exact fa].
  Qed.

  Lemma crit_loop_any obj cs : (forall c, In c cs -> CritPlain obj c /\ CritDecided obj c /\ ~ CritMissing obj c) ->
    exists b, crit_loop apply_op true obj false cs = Ok (b, cs) /\ (b = true <-> exists c, In c cs /\ CritHolds obj c).
  Proof.
    induction cs as [|c cs IH]; intros h; simpl.
    - exists false. split; [reflexivity|]. split; [discriminate|]. intros (? & [] & _).
    - destruct (h c (or_introl eq_refl)) as (pl & dc & nm).
      destruct (crit_step_plain true obj false c pl dc) as [[ho ->]|[[m ->]|(fa & _ & ->)]]; simpl.
      + exists true. split; [reflexivity|]. split; [intros _; exists c; auto|reflexivity].
      + contradiction.
      + destruct IH as (b & -> & hb); [intros; apply h; right; assumption|]. exists b. split; [reflexivity|].
        rewrite hb. split; [intros (c' & i & g); exists c'; auto|]. intros (c' & [<-|i] & g); [destruct (holds_not_fails obj c); assumption|exists c'; auto].
  Qed.

  Lemma components_ne k : components k <> [].
  Proof. unfold components, split_on. intros h. apply map_eq_nil in h. exact (split_on_loop_ne _ _ _ h). Qed.
  Lemma get_components obj k : exists o, get_descendant obj (path_keys (components k)) = Ok o.
  Proof.
    destruct (get_descendant_cases (path_keys (components k))) with (obj := obj) as (r & h & _); [|exists r; exact h].
    intros h. apply map_eq_nil in h. exact (components_ne k h).
  Qed.

  Lemma attr_loop_false obj attrs : attr_loop false obj false attrs = Ok false.
  Proof.
    destruct attrs as [|k attrs]; [reflexivity|]. cbn [attr_loop]. fold (components k).
    destruct (get_components obj k) as [o ->]. reflexivity.
  Qed.
  Lemma attr_loop_all obj attrs : exists b, attr_loop false obj true attrs = Ok b /\ (b = true <-> forall k, In k attrs -> HasAttr obj k).
  Proof.
    induction attrs as [|k attrs IH]; [exists true; split; [reflexivity|]; split; [intros _ ? []|reflexivity]|].
    cbn [attr_loop]. fold (components k). destruct (get_components obj k) as [o g]. rewrite g. cbn [rbind andb].
    destruct (beq_spec EqDec_pyval o VNone) as [->|n]; simpl.
    - exists false. split; [reflexivity|]. split; [discriminate|]. intros h. destruct (h k (or_introl eq_refl)) as (o' & g' & n'). congruence.
    - destruct IH as (b & -> & hb). exists b. split; [reflexivity|]. rewrite hb.
      split; [intros h k' [<-|i]; [exists o; auto|apply h, i]|intros h k' i; apply h; right; exact i].
  Qed.
  Lemma attr_loop_any obj attrs : forall t, exists b, attr_loop true obj t attrs = Ok b /\ (b = true <-> t = true \/ exists k, In k attrs /\ HasAttr obj k).
  Proof.
    induction attrs as [|k attrs IH]; intros t.
    - exists t. split; [reflexivity|]. split; [auto|]. intros [?|(? & [] & _)]; assumption.
    - cbn [attr_loop]. fold (components k). destruct (get_components obj k) as [o g]. rewrite g. cbn [rbind].
      destruct (beq_spec EqDec_pyval o VNone) as [->|n]; simpl.
      + destruct (IH (t || false)) as (b & -> & hb). exists b. split; [reflexivity|]. rewrite hb, orb_false_r. split.
        * intros [?|(k' & i & h)]; [auto|right; exists k'; auto].
        * intros [?|(k' & [<-|i] & h)]; [auto| |right; exists k'; auto]. destruct h as (o' & g' & n'). congruence.
      + exists true. rewrite orb_true_r. split; [reflexivity|]. split; [|reflexivity]. intros _. right. exists k. split; [auto|]. exists o; auto.
  Qed.

  Lemma filter_call_all attrs negate cs obj : (forall c, In c cs -> CritPlain obj c /\ CritDecided obj c) ->
    exists b, filter_call apply_op attrs negate false cs obj = Ok (negb (eqb b negate), cs) /\
      (b = true <-> (forall c, In c cs -> CritHolds obj c) /\ forall k, In k attrs -> HasAttr obj k).
  Proof.
    intros h. unfold filter_call. cbn [negb]. destruct (crit_loop_all obj cs h) as (b & -> & hb). cbn [rbind fst snd].
    destruct b.
    - destruct (attr_loop_all obj attrs) as (b' & -> & hb'). cbn [rbind]. exists b'. split; [reflexivity|]. rewrite hb'. tauto.
    - rewrite attr_loop_false. cbn [rbind]. exists false. split; [reflexivity|]. split; [discriminate|]. intros [g _]. apply hb in g. discriminate.
  Qed.
  Lemma filter_call_any attrs negate cs obj : (forall c, In c cs -> CritPlain obj c /\ CritDecided obj c /\ ~ CritMissing obj c) ->
    exists b, filter_call apply_op attrs negate true cs obj = Ok (negb (eqb b negate), cs) /\
      (b = true <-> (exists c, In c cs /\ CritHolds obj c) \/ exists k, In k attrs /\ HasAttr obj k).
  Proof.
    intros h. unfold filter_call. cbn [negb]. destruct (crit_loop_any obj cs h) as (b & -> & hb). cbn [rbind fst snd].
    destruct (attr_loop_any obj attrs b) as (b' & -> & hb'). cbn [rbind]. exists b'. split; [reflexivity|]. rewrite hb', hb. tauto.
  Qed.

  (** the verdict does not depend on [negate] until the end *)
  Lemma filter_call_negate attrs any_of cs obj :
    (exists b cs', filter_call apply_op attrs false any_of cs obj = Ok (b, cs') /\ filter_call apply_op attrs true any_of cs obj = Ok (negb b, cs')) \/
    (exists e, filter_call apply_op attrs false any_of cs obj = Err e /\ filter_call apply_op attrs true any_of cs obj = Err e).
  Proof.
    unfold filter_call. destruct (crit_loop apply_op any_of obj (negb any_of) cs) as [[t cs']|e]; [|right; exists e; auto].
    cbn [rbind fst snd]. destruct (attr_loop any_of obj t attrs) as [t'|e]; [|right; exists e; auto].
    left. exists t', cs'. destruct t'; auto.
  Qed.

  Lemma partition_merge attrs any_of : forall objs cs,
    let f := fe_loop apply_op attrs false any_of false cs [] objs in
    let x := fe_loop apply_op attrs true any_of false cs [] objs in
    snd f = snd x /\ (snd f = None -> Merge (filter truthy objs) (fst f) (fst x)).
  Proof.
    induction objs as [|o objs IH]; intros cs; cbn [fe_loop filter].
    - split; [reflexivity|]. intros _. constructor.
    - destruct (truthy o); [|apply IH].
      destruct (filter_call_negate attrs any_of cs o) as [(b & cs' & -> & ->)|(e & -> & ->)].
      + destruct (IH cs') as [h1 h2]. cbv zeta in h1, h2. destruct b; cbn [negb fst snd]; (split; [exact h1|]); intros n.
        * apply M_left, h2, n.
        * apply M_right, h2, n.
      + split; [reflexivity|]. discriminate.
  Qed.

  Lemma fe_const attrs negate any_of distinct cs (sat : pyval -> bool) : forall objs seen,
    (forall o, In o objs -> truthy o = true -> filter_call apply_op attrs negate any_of cs o = Ok (negb (eqb (sat o) negate), cs)) ->
    (distinct = true -> forall o, In o objs -> hashable o = true) ->
    fe_loop apply_op attrs negate any_of distinct cs seen objs =
    (let l := filter (fun o => truthy o && negb (eqb (sat o) negate)) objs in if distinct then vdedup_loop seen l else l, None).
  Proof.
    induction objs as [|o objs IH]; intros seen h hh; cbn [fe_loop filter].
    - destruct distinct; reflexivity.
    - assert (H1 : forall o', In o' objs -> truthy o' = true -> filter_call apply_op attrs negate any_of cs o' = Ok (negb (eqb (sat o') negate), cs))
        by (intros; apply h; [right; assumption|assumption]).
      assert (H2 : distinct = true -> forall o', In o' objs -> hashable o' = true) by (intros; apply hh; [assumption|right; assumption]).
      destruct (truthy o) eqn:t; cbn [andb]; [|apply IH; assumption].
      rewrite (h o (or_introl eq_refl) t). destruct (negb (eqb (sat o) negate)); [|apply IH; assumption].
      destruct distinct eqn:ed.
      + rewrite (hh eq_refl o (or_introl eq_refl)). cbv zeta. cbn [vdedup_loop].
        destruct (vmem o seen); rewrite IH by assumption; reflexivity.
      + rewrite IH by assumption. reflexivity.
  Qed.

  (** * reads *)
  Lemma next_loop_fe attrs distinct : forall objs cs n,
    fst (next_loop apply_op attrs distinct cs n objs) = next_answer (fe_loop apply_op attrs false false distinct cs [] objs).
  Proof.
    induction objs as [|o objs IH]; intros cs n; cbn [next_loop fe_loop]; [reflexivity|].
    destruct (truthy o); [|apply IH].
    destruct (filter_call apply_op attrs false false cs o) as [[[] cs']|e]; [|apply IH|reflexivity].
    destruct distinct; [|reflexivity]. destruct (hashable o); reflexivity.
  Qed.

  Lemma py_index_nth {A} (l : list A) k : (0 <= k)%Z -> py_index l k = match nth_error l (Z.to_nat k) with Some v => Ok v | None => Err IndexError end.
  Proof. intros h. unfold py_index. destruct (Z.ltb_spec k 0); [lia|]. destruct (Z.ltb_spec k 0); [lia|]. reflexivity. Qed.

  (** states of a query over a list, without ordering flags *)
  Definition list_ok (l : list pyval) (d : bool) (q : query) : Prop :=
    q_src q = SList l /\ (q_cache q = CNone \/ q_cache q = CList l) /\ q_order_by q = false /\ q_reverse q = false /\ q_distinct q = d.
  (** states of a query over a generator that nothing else reads *)
  Definition gen_ok (l : list pyval) (d : bool) (q : query) : Prop :=
    (q_src q = SGen l /\ q_cache q = CNone \/ q_cache q = CList l) /\ q_order_by q = false /\ q_reverse q = false /\ q_distinct q = d.

  Lemma cache_list l d q : list_ok l d q -> exists q', result_cache q = (q', Ok (CList l)) /\ list_ok l d q'.
  Proof.
    intros (s & c & o & r & di). unfold result_cache. destruct c as [c|c]; rewrite c.
    - rewrite o, r, s. eexists. split; [reflexivity|]. unfold list_ok, with_cache; cbn. rewrite o, r. repeat split; auto.
    - exists q. split; [reflexivity|]. repeat split; auto.
  Qed.
  Lemma cache_gen l d q : gen_ok l d q -> exists q', result_cache q = (q', Ok (CList l)) /\ gen_ok l d q'.
  Proof.
    intros (c & o & r & di). unfold result_cache. destruct c as [[s c]|c]; rewrite c.
    - rewrite o, r, s. eexists. split; [reflexivity|]. unfold gen_ok, with_cache; cbn. rewrite o, r. repeat split; auto.
    - exists q. split; [reflexivity|]. repeat split; auto.
  Qed.

  Lemma list_first {A} (l : list A) (f : A -> pyval) : match nth_error l 0 with Some v => f v | None => VNone end = match l with [] => VNone | v :: _ => f v end.
  Proof. destruct l; reflexivity. Qed.

  Definition from_cache (r : qread) : Prop := match r with QGet _ _ | QNext _ _ => False | _ => True end.

  Lemma step_cached (P : query -> Prop) l d : (forall q, P q -> exists q', result_cache q = (q', Ok (CList l)) /\ P q') ->
    forall q r, P q -> from_cache r -> exists q', qstep apply_op q r = (q', read_answer apply_op d l r) /\ P q'.
  Proof.
    intros C q r p f. destruct (C q p) as (q' & e & p').
    destruct r; simpl in f; try contradiction; unfold qstep, q_len, q_item; try rewrite e; try (exists q'; split; [reflexivity|exact p']).
    - destruct (Z.ltb_spec k 0); cbn [read_answer].
      + exists q. split; [|exact p]. destruct (Z.ltb_spec k 0); [reflexivity|lia].
      + exists q'. split; [|exact p']. destruct (Z.ltb_spec k 0); [lia|]. rewrite py_index_nth by lia. reflexivity.
    - exists q'. split; [|exact p']. cbn [Z.ltb Z.compare]. rewrite py_index_nth by lia. destruct l; reflexivity.
    - exists q. split; [reflexivity|exact p].
    - exists q'. split; [|exact p']. destruct l; reflexivity.
  Qed.

  Lemma step_list l d q r : list_ok l d q -> exists q', qstep apply_op q r = (q', read_answer apply_op d l r) /\ list_ok l d q'.
  Proof.
    intros ok. assert (D : from_cache r \/ exists a k, r = QGet a k \/ r = QNext a k) by (destruct r; simpl; eauto).
    destruct D as [f|(a & k & [-> | ->])].
    - apply (step_cached (list_ok l d) l d); auto. intros q0 h. apply cache_list, h.
    - destruct ok as (s & c & o & rv & di). unfold qstep. rewrite s, di. eexists. split; [reflexivity|].
      unfold list_ok, with_cache; cbn. repeat split; auto.
    - destruct ok as (s & c & o & rv & di). unfold qstep. rewrite s, di. eexists. split.
      + f_equal. cbn [read_answer src_items]. rewrite next_loop_fe. reflexivity.
      + unfold list_ok, with_cache; cbn. repeat split; auto.
  Qed.

  Lemma run_list l d : forall rs q, list_ok l d q -> snd (qrun apply_op q rs) = map (read_answer apply_op d l) rs.
  Proof.
    induction rs as [|r rs IH]; intros q h; [reflexivity|]. simpl.
    destruct (step_list l d q r h) as (q' & e & h'). rewrite e. simpl. f_equal. apply IH, h'.
  Qed.
  Lemma run_gen l d : forall rs q, gen_ok l d q -> (forall r, In r rs -> from_cache r) -> snd (qrun apply_op q rs) = map (read_answer apply_op d l) rs.
  Proof.
    induction rs as [|r rs IH]; intros q h f; [reflexivity|]. simpl.
    destruct (step_cached (gen_ok l d) l d (fun q0 h0 => cache_gen l d q0 h0) q r h (f r (or_introl eq_refl))) as (q' & e & h').
    rewrite e. simpl. f_equal. apply IH; [exact h'|]. intros; apply f; right; assumption.
  Qed.
End Ops.

(** * set operations *)
Lemma union_In others : forall own x, In x (fold_left (fun acc o => acc ++ o) others own) <-> In x own \/ exists o, In o others /\ @In pyval x o.
Proof.
  induction others as [|o others IH]; intros own x; simpl.
  - split; [auto|]. intros [h|(? & [] & _)]; exact h.
  - rewrite IH, in_app_iff. split.
    + intros [[h|h]|(o' & i & h)]; [auto|right; exists o; auto|right; exists o'; auto].
    + intros [h|(o' & [<-|i] & h)]; [auto|auto|right; exists o'; auto].
Qed.
Lemma inter_spec others : forall own, fold_left (fun acc o => filter (fun x => vmem x o) acc) others own =
  filter (fun x : pyval => forallb (fun o => vmem x o) others) own.
Proof.
  induction others as [|o others IH]; intros own; simpl; [symmetry; apply filter_all; reflexivity|].
  rewrite IH. induction own as [|x own IHo]; simpl; [reflexivity|]. destruct (vmem x o); simpl; [|exact IHo].
  destruct (forallb _ others); congruence.
Qed.
Lemma diff_spec others : forall own, fold_left (fun acc o => filter (fun x => negb (vmem x o)) acc) others own =
  filter (fun x : pyval => forallb (fun o => negb (vmem x o)) others) own.
Proof.
  induction others as [|o others IH]; intros own; simpl; [symmetry; apply filter_all; reflexivity|].
  rewrite IH. induction own as [|x own IHo]; simpl; [reflexivity|]. destruct (vmem x o); simpl; [exact IHo|].
  destruct (forallb _ others); congruence.
Qed.
