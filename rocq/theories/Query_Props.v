(** C18-C22: queries. *)
From Verif Require Import Cmp_Spec Cmp_Proofs Query_Model Query_Spec Query_Proofs Str_Proofs Coll_Proofs.

(** * C20: criteria keywords *)
Lemma operator_name e : is_operator e = true <-> OperatorName e.
Proof.
  unfold is_operator, OperatorName. rewrite Bool.orb_true_iff, (mem_In EqDec_string). split.
  - intros [h | h].
    + cbn [operators In] in *. intuition subst; auto 20.
    + do 5 right. destruct e as [|c e]; [discriminate h|]. unfold chars in h. cbn [is_prefix list_ascii_of_string] in h.
      apply Bool.andb_true_iff in h. destruct h as [h _]. apply (beq_true EqDec_ascii) in h. subst c. eauto.
  - intros [h | [-> | [h | [h | [-> | [n ->]]]]]]; cbn [operators In] in *; try (left; intuition subst; auto 25; fail). right. reflexivity.
Qed.
Theorem criteria_split : forall k,
  let path := fst (sort_criteria k) in
  let ops := snd (sort_criteria k) in
  path ++ ops = components k /\
  (forall e, In e ops -> OperatorName e) /\
  (forall e path', path = path' ++ [e] -> ~ OperatorName e).
Proof.
  intros k path ops. subst path ops. unfold sort_criteria. fold (components k).
  destruct (take_ops_spec (rev (components k)) []) as (sfx & h1 & h2 & h3 & h4). rewrite app_nil_r in h1. repeat split.
  - rewrite h1. apply (f_equal (@rev string)) in h2. rewrite rev_involutive, rev_app_distr, rev_involutive in h2. symmetry. exact h2.
  - intros e i. rewrite h1 in i. apply in_rev in i. apply operator_name, h3, i.
  - intros e path' eq hn. apply operator_name in hn. rewrite (h4 e) in hn; [discriminate|]. rewrite eq, rev_app_distr. reflexivity.
Qed.
Print Assumptions criteria_split.

(** the components are the pieces of the keyword between separators *)
Theorem criteria_components : forall k,
  ljoin ["_"; "_"]%char (map chars (components k)) = chars k /\
  forall w, In w (components k) -> forall a b, chars w <> a ++ ["_"; "_"]%char ++ b.
Proof.
  intros k. unfold components. rewrite map_map.
  assert (E : forall l, map (fun x => chars (unchars x)) l = l).
  { induction l as [|w l IH]; [reflexivity|]. cbn [map]. rewrite IH. f_equal. apply list_ascii_of_string_of_list_ascii. }
  rewrite E. split.
  - apply split_on_join; [discriminate|lia].
  - intros w i a b. apply in_map_iff in i. destruct i as (x & <- & i). unfold chars, unchars. rewrite list_ascii_of_string_of_list_ascii.
    eapply split_on_free; [discriminate| |exact i]. lia.
Qed.
Print Assumptions criteria_components.

Lemma split_on_words ws : ws <> [] -> (forall w, In w ws -> ~ In "_"%char w) ->
  split_on ["_"; "_"]%char (ljoin ["_"; "_"]%char ws) = ws.
Proof.
  intros ne free. unfold split_on.
  assert (G : forall fuel ws, ws <> [] -> (forall w, In w ws -> ~ In "_"%char w) -> length (ljoin ["_"; "_"]%char ws) < fuel ->
    split_on_loop fuel ["_"; "_"]%char (ljoin ["_"; "_"]%char ws) = ws).
  { clear. induction fuel as [|f IH]; intros ws ne free h; [lia|].
    destruct ws as [|[|x w] ws]; [contradiction| |].
    - destruct ws as [|w' ws]; [reflexivity|]. rewrite ljoin_cons in * by discriminate. cbn [app] in *.
      cbn [split_on_loop]. cbn [is_prefix]. rewrite !beq_refl. cbn [andb is_prefix length skipn]. f_equal. apply IH; [discriminate| |simpl in *; lia].
      intros; apply free; right; assumption.
    - assert (nx : x <> "_"%char) by (intros ->; apply (free _ (or_introl eq_refl)); left; reflexivity).
      assert (E : ljoin ["_"; "_"]%char ((x :: w) :: ws) = x :: ljoin ["_"; "_"]%char (w :: ws)) by (destruct ws; reflexivity).
      rewrite E in *. cbn [split_on_loop is_prefix]. destruct (beq_spec EqDec_ascii "_"%char x) as [e|_]; [congruence|]. cbn [andb].
      rewrite IH; [reflexivity|discriminate| |cbn [length] in h; lia].
      intros u [<-|i]; [intros i'; apply (free _ (or_introl eq_refl)); right; exact i'|apply free; right; exact i]. }
  apply G; auto.
Qed.

(** a keyword written as path and operators is read back as that path and those operators *)
Theorem criteria_round_trip : forall path e ops,
  (forall w, In w (path ++ e :: ops) -> ~ In "_"%char (chars w)) ->
  is_operator e = false -> (forall o, In o ops -> is_operator o = true) ->
  sort_criteria (unchars (ljoin ["_"; "_"]%char (map chars (path ++ e :: ops)))) = (path ++ [e], ops).
Proof.
  intros path e ops free ne io. unfold sort_criteria, chars, unchars. rewrite list_ascii_of_string_of_list_ascii.
  rewrite split_on_words.
  - rewrite map_map. rewrite (map_ext _ (fun x => x)) by apply string_of_list_ascii_of_string. rewrite map_id, rev_app_distr. cbn [rev].
    rewrite <- app_assoc. cbn [app].
    assert (G : forall l acc, (forall o, In o l -> is_operator o = true) -> take_ops (rev l ++ e :: rev path) acc = (path ++ [e], l ++ acc)).
    { clear - ne. intros l. induction l as [|x l IH] using rev_ind; intros acc h.
      - simpl. rewrite ne, rev_involutive. reflexivity.
      - rewrite rev_app_distr. simpl. rewrite h by (apply in_or_app; right; left; reflexivity).
        rewrite IH by (intros; apply h, in_or_app; left; assumption). rewrite <- app_assoc. reflexivity. }
    rewrite G by exact io. rewrite app_nil_r. reflexivity.
  - destruct path; discriminate.
  - intros w i. apply in_map_iff in i. destruct i as (x & <- & i). apply free, i.
Qed.
Print Assumptions criteria_round_trip.

Example criteria_ex : sort_criteria "child__items__size__not__ge" = (["child"; "items"], ["size"; "not"; "ge"])%string
  /\ sort_criteria "a__lt__b__@0" = (["a"; "lt"; "b"], ["@0"])%string.
Proof. split; reflexivity. Qed.

(** FINDING: an attribute named like an operator cannot be queried: the path is empty and the test raises *)
Theorem criteria_operator_name_refuted : forall apply_op o, exists k v,
  filter_call apply_op [] false false [mk_crit (k, v)] o = Err IndexError.
Proof. intros. exists "size"%string, VNone. reflexivity. Qed.
Print Assumptions criteria_operator_name_refuted.

(** * C19 *)
Theorem filter_all_of_iff : forall apply_op attrs kvs obj,
  (forall kv, In kv kvs -> CritPlain obj (mk_crit kv) /\ CritDecided apply_op obj (mk_crit kv)) ->
  exists b, filter_call apply_op attrs false false (map mk_crit kvs) obj = Ok (b, map mk_crit kvs) /\
    (b = true <-> (forall kv, In kv kvs -> CritHolds apply_op obj (mk_crit kv)) /\ forall k, In k attrs -> HasAttr obj k).
Proof.
  intros apply_op attrs kvs obj h. destruct (filter_call_all apply_op attrs false (map mk_crit kvs) obj) as (b & e & hb).
  - intros c i. apply in_map_iff in i. destruct i as (kv & <- & i). apply h, i.
  - exists b. split; [rewrite e; destruct b; reflexivity|]. rewrite hb. split; intros [g1 g2]; (split; [|exact g2]).
    + intros kv i. apply g1, in_map, i.
    + intros c i. apply in_map_iff in i. destruct i as (kv & <- & i). apply g1, i.
Qed.
Print Assumptions filter_all_of_iff.

Theorem filter_any_of_iff : forall apply_op attrs kvs obj,
  (forall kv, In kv kvs -> CritPlain obj (mk_crit kv) /\ CritDecided apply_op obj (mk_crit kv) /\ ~ CritMissing obj (mk_crit kv)) ->
  exists b, filter_call apply_op attrs false true (map mk_crit kvs) obj = Ok (b, map mk_crit kvs) /\
    (b = true <-> (exists kv, In kv kvs /\ CritHolds apply_op obj (mk_crit kv)) \/ exists k, In k attrs /\ HasAttr obj k).
Proof.
  intros apply_op attrs kvs obj h. destruct (filter_call_any apply_op attrs false (map mk_crit kvs) obj) as (b & e & hb).
  - intros c i. apply in_map_iff in i. destruct i as (kv & <- & i). apply h, i.
  - exists b. split; [rewrite e; destruct b; reflexivity|]. rewrite hb. split; (intros [(x & i & g)|g]; [left|right; exact g]).
    + apply in_map_iff in i. destruct i as (kv & <- & i). exists kv. auto.
    + exists (mk_crit x). split; [apply in_map, i|exact g].
Qed.
Print Assumptions filter_any_of_iff.

(** FINDING: with any-of, an absent attribute ends the test at once, whatever the criteria after it *)
Theorem filter_any_of_missing_refuted : exists kvs obj rx,
  (exists kv, In kv kvs /\ CritHolds (std_op rx) obj (mk_crit kv)) /\
  filter_call (std_op rx) [] false true (map mk_crit kvs) obj = Ok (false, map mk_crit kvs).
Proof.
  exists [("b"%string, VInt 1); ("a"%string, VInt 1)], (VDict [("a"%string, VInt 1)]), (fun _ _ _ => Ok VNone). split; [|reflexivity].
  exists ("a"%string, VInt 1). split; [right; left; reflexivity|]. exists (VInt 1), (VBool true). repeat split; [discriminate|].
  econstructor; [reflexivity|constructor].
Qed.
Print Assumptions filter_any_of_missing_refuted.

Definition no_rx : string -> string -> string -> res pyval := fun _ _ _ => Ok VNone.
Definition item (n : Z) (s : string) : pyval := VDict [("n"%string, VInt n); ("s"%string, VStr s); ("c"%string, VDict [("l"%string, VList [VInt n; VInt 2])])].
Example filter_hyp_ex : forall kv, In kv [("n__ge", VInt 2); ("c__l__size", VInt 2); ("s__not__startswith", VStr "x")]%string ->
  CritPlain (item 3 "ab") (mk_crit kv) /\ CritDecided (std_op no_rx) (item 3 "ab") (mk_crit kv) /\ ~ CritMissing (item 3 "ab") (mk_crit kv).
Proof.
  intros kv i. repeat (destruct i as [<-|i]); try (destruct i).
  - split; [right; intros o h; injection h as <-; reflexivity|]. split; [|discriminate].
    left. exists (VInt 3), (VBool true). split; [reflexivity|]. split; [discriminate|]. split; [econstructor; [reflexivity|constructor]|reflexivity].
  - split; [right; intros o h; injection h as <-; reflexivity|]. split; [|discriminate].
    left. exists (VList [VInt 3; VInt 2]), (VInt 2). split; [reflexivity|]. split; [discriminate|]. split; [econstructor; [reflexivity|constructor]|reflexivity].
  - split; [right; intros o h; injection h as <-; reflexivity|]. split; [|discriminate].
    left. exists (VStr "ab"), (VBool false). split; [reflexivity|]. split; [discriminate|]. split; [econstructor; [reflexivity|constructor]|reflexivity].
Qed.

(** * C18 *)
Theorem filter_exclude_partition : forall apply_op attrs kvs any_of objs,
  let f := filter_or_exclude apply_op attrs kvs false any_of false objs in
  let x := filter_or_exclude apply_op attrs kvs true any_of false objs in
  snd f = snd x /\ (snd f = None -> Merge (filter truthy objs) (fst f) (fst x)).
Proof. intros. apply partition_merge. Qed.
Print Assumptions filter_exclude_partition.

(** with plain criteria, both keep the source order and select by the criteria *)
Theorem filter_selects : forall apply_op attrs kvs objs (sat : pyval -> bool),
  (forall o kv, In o objs -> truthy o = true -> In kv kvs -> CritPlain o (mk_crit kv) /\ CritDecided apply_op o (mk_crit kv)) ->
  (forall o, In o objs -> truthy o = true -> (sat o = true <->
     (forall kv, In kv kvs -> CritHolds apply_op o (mk_crit kv)) /\ forall k, In k attrs -> HasAttr o k)) ->
  filter_or_exclude apply_op attrs kvs false false false objs = (filter (fun o => truthy o && sat o) objs, None) /\
  filter_or_exclude apply_op attrs kvs true false false objs = (filter (fun o => truthy o && negb (sat o)) objs, None).
Proof.
  intros apply_op attrs kvs objs sat h hs.
  assert (C : forall neg o, In o objs -> truthy o = true ->
    filter_call apply_op attrs neg false (map mk_crit kvs) o = Ok (negb (eqb (sat o) neg), map mk_crit kvs)).
  { intros neg o i t. destruct (filter_call_all apply_op attrs neg (map mk_crit kvs) o) as (b & e & hb).
    - intros c ic. apply in_map_iff in ic. destruct ic as (kv & <- & ic). apply h; assumption.
    - rewrite e. assert (b = sat o) as ->; [|reflexivity]. apply eq_true_iff_eq. rewrite hb, (hs o i t).
      split; intros [g1 g2]; (split; [|exact g2]).
      + intros kv ik. apply g1, in_map, ik.
      + intros c ic. apply in_map_iff in ic. destruct ic as (kv & <- & ic). apply g1, ic. }
  unfold filter_or_exclude. split; rewrite (fe_const apply_op attrs _ false false (map mk_crit kvs) sat) by (try discriminate; apply C);
    f_equal; apply filter_ext; intros o; destruct (sat o); reflexivity.
Qed.
Print Assumptions filter_selects.

(** [distinct] keeps the first of equal objects *)
Theorem filter_distinct : forall apply_op attrs kvs objs (sat : pyval -> bool),
  (forall o kv, In o objs -> truthy o = true -> In kv kvs -> CritPlain o (mk_crit kv) /\ CritDecided apply_op o (mk_crit kv)) ->
  (forall o, In o objs -> truthy o = true -> (sat o = true <->
     (forall kv, In kv kvs -> CritHolds apply_op o (mk_crit kv)) /\ forall k, In k attrs -> HasAttr o k)) ->
  (forall o, In o objs -> hashable o = true) ->
  let matching := filter (fun o => truthy o && sat o) objs in
  exists r, filter_or_exclude apply_op attrs kvs false false true objs = (r, None) /\ r = vdedup matching /\
    (forall x, In x r -> In x matching) /\
    (forall x, In x matching -> In x r \/ exists y, In y r /\ PyEq y x) /\
    (forall a x b y c, r = a ++ x :: b ++ y :: c -> ~ PyEq x y).
Proof.
  intros apply_op attrs kvs objs sat h hs hh matching. exists (vdedup matching). split; [|split; [reflexivity|split; [|split]]].
  2: { intros x i. apply vdedup_loop_In in i. tauto. }
  2: { intros x i. destruct (vdedup_loop_cover [] _ x i) as [i' | [i' | i']]; [auto | discriminate | auto]. }
  2: { intros a x b y c e. exact (vdedup_loop_free [] _ _ _ _ _ _ e). }
  unfold filter_or_exclude.
  rewrite (fe_const apply_op attrs _ false true (map mk_crit kvs) sat); [|intros o i t|auto].
  - f_equal. unfold vdedup. f_equal. apply filter_ext. intros o. destruct (sat o); reflexivity.
  - destruct (filter_call_all apply_op attrs false (map mk_crit kvs) o) as (b & e & hb).
    + intros c ic. apply in_map_iff in ic. destruct ic as (kv & <- & ic). apply h; assumption.
    + rewrite e. assert (b = sat o) as ->; [|reflexivity]. apply eq_true_iff_eq. rewrite hb, (hs o i t).
      split; intros [g1 g2]; (split; [|exact g2]).
      * intros kv ik. apply g1, in_map, ik.
      * intros c ic. apply in_map_iff in ic. destruct ic as (kv & <- & ic). apply g1, ic.
Qed.
Print Assumptions filter_distinct.

(** FINDING: when an operator name is also the name of a child, the filter rewrites its own criterion, so that whether
    an object is kept depends on the objects before it *)
Theorem filter_history_refuted : exists kvs o1 o2,
  fst (filter_or_exclude (std_op no_rx) [] kvs false false false [o2]) = [o2] /\
  ~ In o2 (fst (filter_or_exclude (std_op no_rx) [] kvs false false false [o1; o2])).
Proof.
  exists [("a__size"%string, VInt 2)], (VDict [("a"%string, VDict [("size"%string, VInt 2)])]), (VDict [("a"%string, VList [VInt 1; VInt 1])]).
  split; [reflexivity|]. vm_compute. intros [h|[]]. discriminate.
Qed.
Print Assumptions filter_history_refuted.

(** The value at the end of the path is a mapping: the first operator is then taken for the name of one of its members. If
    it is one, the criterion is that of the longer path, *)
Lemma operator_child d name : In name operators -> get_descendant_str (VDict d) (chars name) = Ok (match dget name d with Some v => v | None => VNone end).
Proof. intros h. repeat (destruct h as [<- | h]; [unfold get_descendant_str; cbn -[dget]; destruct (dget _ d); reflexivity|]). destruct h. Qed.
Theorem operator_names_child : forall apply_op attrs negate any_of obj ks name ops neg v d x,
  get_descendant obj (path_keys ks) = Ok (VDict d) -> In name operators -> dget name d = Some x -> truthy x = true ->
  (ops = [] \/ exists op, ops = [op] /\ is_mapping x = false) ->
  filter_call apply_op attrs negate any_of [{| c_ks := ks; c_ops := name :: ops; c_neg := neg; c_val := v |}] obj =
  filter_call apply_op attrs negate any_of [{| c_ks := ks ++ [name]; c_ops := ops; c_neg := neg; c_val := v |}] obj.
Proof.
  intros apply_op attrs negate any_of obj ks name ops neg v d x hg hn hx ht ho.
  assert (hg2 : get_descendant obj (path_keys (ks ++ [name])) = Ok x).
  { unfold path_keys in *. rewrite map_app. cbn [map]. clear - hg hx. revert obj hg. induction ks as [|k ks IH]; intros obj hg; [discriminate|].
    cbn [map app get_descendant] in *. destruct ks as [|k2 ks]; cbn [map app] in *.
    - injection hg as hg. rewrite hg. destruct d; [discriminate|]. cbn [truthy]. cbn [get_descendant getitem]. rewrite hx. reflexivity.
    - destruct (truthy _) eqn:e; [apply IH, hg|]. injection hg as hg. rewrite hg in e. destruct d; discriminate. }
  assert (hs : crit_step apply_op any_of obj (negb any_of) {| c_ks := ks; c_ops := name :: ops; c_neg := neg; c_val := v |} =
               crit_step apply_op any_of obj (negb any_of) {| c_ks := ks ++ [name]; c_ops := ops; c_neg := neg; c_val := v |}).
  { unfold crit_step. cbn [c_ks c_ops c_neg c_val]. rewrite hg, hg2. cbn [rbind is_mapping child_loop nth_error].
    rewrite (operator_child d name hn), hx, ht.
    assert (hx0 : x <> VNone) by (intros ->; discriminate).
    destruct ho as [-> | (op & -> & hm)]; [destruct x; try congruence; reflexivity|].
    rewrite hm. destruct x; try congruence; reflexivity. }
  unfold filter_call. cbn [crit_loop]. rewrite hs. reflexivity.
Qed.
Print Assumptions operator_names_child.
(** and if not, the object is rejected, although the test may hold of the mapping. *)
Theorem operator_on_mapping_refuted : forall apply_op attrs obj c d op ops,
  get_descendant obj (path_keys (c_ks c)) = Ok (VDict d) -> c_ops c = op :: ops -> In op operators -> dget op d = None ->
  CritDecided apply_op obj c ->
  filter_call apply_op attrs false false [c] obj = match attr_loop false obj false attrs with Ok _ => Ok (false, [c]) | Err e => Err e end.
Proof.
  intros apply_op attrs obj c d op ops hg ho hop hd hc.
  assert (h : exists r, OpChain apply_op (test_ops c) (VDict d) (c_val c) r).
  { destruct hc as [(o & r & h1 & _ & h2 & _) | [h1 | (o & r & h1 & _ & h2 & _)]]; [rewrite hg in h1; injection h1 as <-; eauto | unfold CritMissing in h1; rewrite hg in h1; discriminate | rewrite hg in h1; injection h1 as <-; eauto]. }
  destruct h as (r & hr). unfold test_ops in hr. rewrite ho in hr.
  assert (ha : apply_ops apply_op (op :: ops) (VDict d) (c_val c) = Ok r).
  { clear - hr. induction hr as [a b|o' os a b a' r h _ IH]; [reflexivity|]. cbn [apply_ops]. rewrite h. cbn [rbind]. exact IH. }
  assert (hs : crit_step apply_op false obj true c = Ok (false, c, true)).
  { unfold crit_step. rewrite hg. cbn [rbind]. rewrite ho. cbn [is_mapping child_loop nth_error]. rewrite (operator_child d op hop), hd. cbn [truthy].
    unfold apply_ops_test. change (is_mapping (VDict d)) with true. cbv iota beta. rewrite ha. cbn [rbind andb negb]. rewrite <- ho. destruct c; reflexivity. }
  unfold filter_call. cbn [negb crit_loop]. rewrite hs. cbn [rbind fst snd].
  assert (ht : forall t, attr_loop false obj false attrs = Ok t -> t = false).
  { destruct attrs as [|k attrs]; cbn [attr_loop]; intros t; [congruence|]. cbn [rbind andb negb]. intros h.
    destruct (get_descendant obj (path_keys (map unchars (split_on ["_"; "_"]%char (chars k))))); cbn [rbind] in h; congruence. }
  destruct (attr_loop false obj false attrs) as [t|e] eqn:et; [|reflexivity]. rewrite (ht t eq_refl). reflexivity.
Qed.
Print Assumptions operator_on_mapping_refuted.
Example operator_on_mapping_ex :
  let c := mk_crit ("a__size"%string, VInt 1) in let obj := VDict [("a"%string, VDict [("x"%string, VInt 5)])] in
  CritHolds (std_op no_rx) obj c /\ filter_call (std_op no_rx) [] false false [c] obj = Ok (false, [c]).
Proof.
  split; [|reflexivity]. exists (VDict [("x"%string, VInt 5)]), (VInt 1). repeat split; [discriminate|]. econstructor; [reflexivity | constructor].
Qed.
Example operator_names_child_ex :
  let c := mk_crit ("a__size__ge"%string, VInt 3) in let obj := VDict [("a"%string, VDict [("size"%string, VInt 5)])] in
  filter_call (std_op no_rx) [] false false [c] obj = Ok (true, [{| c_ks := ["a"; "size"]%string; c_ops := ["ge"%string]; c_neg := false; c_val := VInt 3 |}]).
Proof. reflexivity. Qed.

Example partition_ex :
  filter_or_exclude (std_op no_rx) [] [("n__ge", VInt 2)]%string false false false [item 1 "a"; VNone; item 2 "b"; item 3 "c"]
    = ([item 2 "b"; item 3 "c"], None)
  /\ filter_or_exclude (std_op no_rx) [] [("n__ge", VInt 2)]%string true false false [item 1 "a"; VNone; item 2 "b"; item 3 "c"]
    = ([item 1 "a"], None).
Proof. split; reflexivity. Qed.

(** * C21 *)
(** over a list, any sequence of reads answers from that list: nothing a read does changes a later answer *)
Theorem query_reads : forall apply_op l distinct rs,
  snd (qrun apply_op (mk_query (SList l) false false distinct) rs) = map (read_answer apply_op distinct l) rs.
Proof. intros. apply run_list. repeat split; auto. Qed.
Print Assumptions query_reads.

(** over a generator (the result of filter or exclude) the same holds of the reads that go through the cached list *)
Theorem query_reads_generator : forall apply_op l distinct rs, (forall r, In r rs -> from_cache r) ->
  snd (qrun apply_op (mk_query (SGen l) false false distinct) rs) = map (read_answer apply_op distinct l) rs.
Proof. intros. apply run_gen; [|assumption]. split; [left; auto|auto]. Qed.
Print Assumptions query_reads_generator.

(** FINDING: get and next read the generator itself: after an iteration nothing is left for them *)
Theorem query_get_after_iteration_refuted : exists l x,
  get_answer (filter_or_exclude (std_op no_rx) [] [] false false false l) = Ok x /\
  snd (qrun (std_op no_rx) (mk_query (SGen l) false false false) [QIter; QGet [] []]) = [OList (Ok l); OVal (Err (UserError 0))].
Proof. exists [item 1 "a"], (item 1 "a"). split; reflexivity. Qed.
Print Assumptions query_get_after_iteration_refuted.

(** FINDING: with reverse, the cache is a one-shot iterator: no length, no indexing, and empty on the second reading *)
Theorem query_reverse_refuted : forall apply_op l d,
  snd (qrun apply_op (mk_query (SList l) false true d) [QIter; QIter; QLen; QItem 0]) =
  [OList (Ok (rev l)); OList (Ok []); ONat (Err TypeError); OVal (Err TypeError)].
Proof. reflexivity. Qed.
Print Assumptions query_reverse_refuted.

(** FINDING: order_by raises on the first read, and answers unsorted from the second on *)
Theorem query_order_by_refuted : forall apply_op l d rev,
  snd (qrun apply_op (mk_query (SList l) true rev d) [QIter; QIter]) = [OList (Err TypeError); OList (Ok l)].
Proof. reflexivity. Qed.
Print Assumptions query_order_by_refuted.

(** get: the single match; none or several raise *)
Theorem query_get_single : forall apply_op l d attrs kvs x,
  filter_or_exclude apply_op attrs kvs false false d l = ([x], None) <->
  snd (qstep apply_op (mk_query (SList l) false false d) (QGet attrs kvs)) = OVal (Ok x).
Proof.
  intros. cbn [qstep snd mk_query q_src q_distinct src_items]. destruct (filter_or_exclude apply_op attrs kvs false false d l) as [[|y [|z ys]] [e|]]; split;
    intros h; try discriminate; injection h as <-; reflexivity.
Qed.
Print Assumptions query_get_single.

Example query_reads_ex :
  snd (qrun (std_op no_rx) (mk_query (SList [item 1 "a"; item 2 "b"]) false false false)
        [QLen; QItem 1; QNext [] []; QItem 2; QGet [] [("n"%string, VInt 2)]; QFirst])
  = [ONat (Ok 2); OVal (Ok (item 2 "b")); OVal (Ok (item 1 "a")); OVal (Err IndexError); OVal (Ok (item 2 "b")); OVal (Ok (item 1 "a"))].
Proof. reflexivity. Qed.

(** * C22 *)
Theorem query_union : forall own others x,
  In x (snd (q_union own others)) <-> In x own \/ exists o, In o others /\ In x o.
Proof. intros. apply union_In. Qed.
Print Assumptions query_union.

Theorem query_intersection : forall own others,
  fst (q_intersection own others) = own /\
  (exists keep, snd (q_intersection own others) = filter keep own /\
                forall x, keep x = true <-> forall o, In o others -> exists y, In y o /\ PyEq y x) /\
  forall x, In x (snd (q_intersection own others)) <-> In x own /\ forall o, In o others -> exists y, In y o /\ PyEq y x.
Proof.
  intros. unfold q_intersection. rewrite inter_spec. cbn [fst snd]. split; [reflexivity|].
  assert (hk : forall x, forallb (fun o => vmem x o) others = true <-> forall o, In o others -> exists y, In y o /\ PyEq y x).
  { intros x. rewrite forallb_forall. split; intros h o i; apply vmem_spec, h, i. }
  split; [exists (fun x => forallb (fun o => vmem x o) others); auto|]. intros x. rewrite filter_In, hk. reflexivity.
Qed.
Print Assumptions query_intersection.

Theorem query_difference : forall own others,
  fst (q_difference own others) = own /\
  (exists keep, snd (q_difference own others) = filter keep own /\
                forall x, keep x = true <-> forall o y, In o others -> In y o -> ~ PyEq y x) /\
  forall x, In x (snd (q_difference own others)) <-> In x own /\ forall o y, In o others -> In y o -> ~ PyEq y x.
Proof.
  intros. unfold q_difference. rewrite diff_spec. cbn [fst snd]. split; [reflexivity|].
  assert (hk : forall x, forallb (fun o => negb (vmem x o)) others = true <-> forall o y, In o others -> In y o -> ~ PyEq y x).
  { intros x. rewrite forallb_forall. split.
    - intros h o y i. exact (proj1 (vmem_false x o) (proj1 (negb_true_iff _) (h o i)) y).
    - intros h o i. apply negb_true_iff, vmem_false. intros y. apply h, i. }
  split; [exists (fun x => forallb (fun o => negb (vmem x o)) others); auto|]. intros x. rewrite filter_In, hk. reflexivity.
Qed.
Print Assumptions query_difference.

(** FINDING: union leaves its result in the receiver: the receiver's own results change *)
Theorem query_union_receiver_refuted : forall own others, exists own',
  fst (q_union own others) = own' /\ (own' = own <-> forall o, In o others -> o = []).
Proof.
  intros own others. eexists. split; [reflexivity|]. unfold q_union. cbn [fst].
  assert (L : forall os l, length (fold_left (fun acc o : list pyval => acc ++ o) os l) = length l + list_sum (map (@length pyval) os)).
  { induction os as [|o os IH]; intros l; simpl; [lia|]. rewrite IH, app_length. lia. }
  split.
  - intros e o i. assert (S : list_sum (map (@length pyval) others) = 0) by (pose proof (L others own) as h; rewrite e in h; lia).
    clear - S i. revert i. induction others as [|o' os IH]; [intros []|]. simpl in S. apply Nat.eq_add_0 in S. destruct S as [S1 S2].
    intros [<-|i]; [destruct o'; [reflexivity|discriminate]|]. apply IH; [exact S2|exact i].
  - intros h. revert own. induction others as [|o os IH]; intros own; [reflexivity|]. simpl. rewrite (h o (or_introl eq_refl)), app_nil_r.
    apply IH. intros; apply h; right; assumption.
Qed.
Print Assumptions query_union_receiver_refuted.

Example query_sets_ex : q_union [VInt 1; VInt 2] [[VInt 2; VInt 3]] = ([VInt 1; VInt 2; VInt 2; VInt 3], [VInt 1; VInt 2; VInt 2; VInt 3])
  /\ snd (q_intersection [VInt 1; VInt 2] [[VInt 2; VInt 3]]) = [VInt 2] /\ snd (q_difference [VInt 1; VInt 2] [[VInt 2; VInt 3]]) = [VInt 1].
Proof. repeat split. Qed.
