(** C27, C28, C35: evaluation order, validation and print order of objects. *)
From Verif Require Import Object_Model Object_Spec Order_Spec Order_Proofs Topo_Proofs Order_Props.

Lemma flat_map_filter_concat {A} (f : A -> bool) ll : flat_map (filter f) ll = filter f (concat ll).
Proof. induction ll as [|l ll IH]; simpl; [reflexivity|]. rewrite IH. symmetry. apply filter_app. Qed.

Lemma Before_filter {A} (f : A -> bool) a b l : f a = true -> f b = true -> Before a b l -> Before a b (filter f l).
Proof.
  intros fa fb (l1 & l2 & l3 & ->). exists (filter f l1), (filter f l2), (filter f l3).
  rewrite filter_app. simpl. rewrite fa, filter_app. simpl. rewrite fb. reflexivity.
Qed.
Lemma Before_mid {A} (a b : A) p l q : Before a b l -> Before a b (p ++ l ++ q).
Proof.
  intros (l1 & l2 & l3 & ->). exists (p ++ l1), l2, (l3 ++ q). rewrite <- !app_assoc. simpl. rewrite <- app_assoc. reflexivity.
Qed.

(** * C27 *)
(** without cycles the order lists every required property (present or not) and every key, once, required ones first *)
Theorem call_order_complete : forall required keys deps, dwf deps -> NoDup required -> ~ (exists x, Cyclic deps x) ->
  exists l, call_order required keys deps = (l, Ok tt) /\ NoDup l /\
    (forall x, In x l <-> In x required \/ In x keys) /\ exists rest, l = required ++ rest.
Proof.
  intros required keys deps wf nd ac. unfold call_order.
  set (un := filter (fun k => negb (mem k required)) (dedup keys)).
  assert (U : forall x, In x un <-> In x keys /\ ~ In x required).
  { intros x. unfold un. rewrite filter_In, dedup_In, negb_true_iff, mem_not_In. tauto. }
  assert (UN : NoDup un) by (apply NoDup_filter, dedup_NoDup).
  destruct un as [|u un'] eqn:eu.
  - exists required. repeat split; auto.
    + intros [h|h]; [exact h|]. destruct (mem_spec EqDec_string x required) as [i|n]; [exact i|]. destruct (proj2 (U x) (conj h n)).
    + exists []. symmetry; apply app_nil_r.
  - rewrite <- eu in *. clear eu u un'.
    destruct (topological_sort_layers _ _ deps wf) as (TN & _ & _ & _).
    destruct (proj1 (topological_sort_detects_cycles _ _ deps wf)) as [_ ok]. specialize (ok ac). rewrite ok.
    rewrite flat_map_filter_concat. set (ord := filter (fun i => mem i un) (concat (fst (topological_sort deps)))).
    set (rest := filter (fun i => negb (mem i ord)) un).
    assert (R : forall x, In x ord \/ In x rest <-> In x un).
    { intros x. unfold rest. rewrite filter_In, negb_true_iff, mem_not_In. split.
      - intros [h|[h _]]; [|exact h]. unfold ord in h. apply filter_In in h. destruct h as [_ h]. apply (mem_In EqDec_string) in h. exact h.
      - intros h. destruct (mem_spec EqDec_string x ord); auto. }
    exists (required ++ ord ++ rest). split; [reflexivity|]. split; [|split].
    + apply NoDup_app_intro; [exact nd| |].
      * apply NoDup_app_intro; [apply NoDup_filter, TN|apply NoDup_filter, UN|]. intros x h1 h2. unfold rest in h2. apply filter_In in h2.
        destruct h2 as [_ h2]. apply negb_true_iff, (mem_not_In EqDec_string) in h2. contradiction.
      * intros x h1 h2. apply in_app_iff, R, U in h2. tauto.
    + intros x. rewrite !in_app_iff, R, U. destruct (mem_spec EqDec_string x required); tauto.
    + exists (ord ++ rest). reflexivity.
Qed.
Print Assumptions call_order_complete.

(** among the keys that are not required, a key comes after those it depends on *)
Theorem call_order_dependencies : forall required keys deps x y, dwf deps -> ~ (exists z, Cyclic deps z) ->
  In x keys -> In y keys -> ~ In x required -> ~ In y required -> Dep deps x y ->
  Before y x (fst (call_order required keys deps)).
Proof.
  intros required keys deps x y wf ac kx ky rx ry dep. unfold call_order.
  set (un := filter (fun k => negb (mem k required)) (dedup keys)).
  assert (U : forall z, In z keys -> ~ In z required -> mem z un = true).
  { intros z h1 h2. apply (mem_In EqDec_string). unfold un. rewrite filter_In, dedup_In, negb_true_iff, mem_not_In. auto. }
  pose proof (U x kx rx) as ux. pose proof (U y ky ry) as uy.
  destruct un as [|u un'] eqn:eu; [discriminate|]. rewrite <- eu in *. clear eu u un'.
  destruct (topological_sort_layers _ _ deps wf) as (TN & _ & TD & _).
  destruct (proj1 (topological_sort_detects_cycles _ _ deps wf)) as [_ ok]. specialize (ok ac). rewrite ok. cbn [fst].
  rewrite flat_map_filter_concat. apply Before_mid, Before_filter; [exact uy|exact ux|].
  assert (ix : In x (concat (fst (topological_sort deps)))).
  { apply topological_sort_yields; [exact wf|]. split.
    - left. destruct dep as [(s & i & _) _]. apply in_map_iff. exists (x, s). auto.
    - intros (z & _ & c). apply ac. exists z. exact c. }
  apply in_concat in ix. destruct ix as (l & il & ix). apply in_split in il. destruct il as (pre & post & e).
  pose proof (TD pre l post x y e ix dep) as iy. rewrite e, concat_app. simpl.
  apply in_split in iy. destruct iy as (a & b & ->). apply in_split in ix. destruct ix as (c & d & ->).
  exists a, (b ++ c), (d ++ concat post). rewrite <- !app_assoc. simpl. rewrite <- ?app_assoc. reflexivity.
Qed.
Print Assumptions call_order_dependencies.

(** a cycle raises, unless every key is required *)
Theorem call_order_cycle : forall required keys deps, dwf deps -> (exists x, Cyclic deps x) ->
  (snd (call_order required keys deps) = Err AssertionError <-> exists k, In k keys /\ ~ In k required).
Proof.
  intros required keys deps wf cy. unfold call_order.
  set (un := filter (fun k => negb (mem k required)) (dedup keys)).
  assert (U : forall x, In x un <-> In x keys /\ ~ In x required).
  { intros x. unfold un. rewrite filter_In, dedup_In, negb_true_iff, mem_not_In. tauto. }
  destruct un as [|u un'] eqn:eu.
  - split; [discriminate|]. intros (k & h). apply U in h. destruct h.
  - destruct (proj2 (topological_sort_detects_cycles _ _ deps wf)) as [_ er]. rewrite (er cy). split; [|reflexivity].
    intros _. exists u. apply U. left; reflexivity.
Qed.
Print Assumptions call_order_cycle.
(** the required keys come first, whatever happens after *)
Theorem call_order_required : forall required keys deps, exists rest, fst (call_order required keys deps) = required ++ rest.
Proof.
  intros required keys deps. unfold call_order. destruct (filter _ (dedup keys)); [exists []; rewrite app_nil_r; reflexivity|].
  destruct (snd (topological_sort deps)); eexists; reflexivity.
Qed.
Print Assumptions call_order_required.

(** FINDING: given dependencies, a type (an object of a class asks in another way, below) orders required properties before the
    optional ones they depend on *)
Theorem call_order_required_first_refuted : exists required keys deps,
  dwf deps /\ ~ (exists z, Cyclic deps z) /\ Dep deps "total"%string "unit"%string /\ In "unit"%string keys /\ In "total"%string keys /\
  ~ Before "unit"%string "total"%string (fst (call_order required keys deps)).
Proof.
  exists ["total"]%string, ["total"; "unit"]%string, [("total", ["unit"])]%string.
  assert (W : dwf [("total", ["unit"])]%string) by (unfold dwf; simpl; repeat constructor; simpl; intuition).
  repeat split; simpl; auto; try discriminate.
  - pose proof (proj1 (topological_sort_detects_cycles _ _ _ W)) as T. apply T. reflexivity.
  - exists ["unit"]%string. simpl; auto.
  - intros (l1 & l2 & l3 & e). destruct l1 as [|? [|? l1]]; try discriminate.
    + simpl in e. injection e as e. destruct l2; discriminate.
    + simpl in e. injection e as _ _ e. destruct l1; discriminate.
Qed.
Print Assumptions call_order_required_first_refuted.

(** FINDING: computing the order for one value extends the class's dependency table with that value's inputs: the table
    then used for other instances of the class *)
Theorem call_order_leaks_inputs_refuted : exists cdeps inputs keys cdeps' x y,
  fst (protocol_call_order cdeps inputs keys) = cdeps' /\ ~ Dep cdeps x y /\ Dep cdeps' x y.
Proof.
  exists [("a", ["b"])]%string, [("a", ["c"])]%string, ["a"; "b"; "c"]%string, [("a", ["b"; "c"])]%string, "a"%string, "c"%string.
  split; [reflexivity|]. split.
  - intros [(s & [e|[]] & i) _]. injection e as <-. simpl in i. destruct i as [i|[]]; discriminate.
  - split; [exists ["b"; "c"]%string; simpl; auto|discriminate].
Qed.
Print Assumptions call_order_leaks_inputs_refuted.

(** it never loses a class dependency *)
Theorem call_order_keeps_dependencies : forall cdeps inputs keys k s x, dwf cdeps ->
  In (k, s) cdeps -> In x s -> exists s', In (k, s') (fst (protocol_call_order cdeps inputs keys)) /\ In x s'.
Proof.
  intros cdeps inputs keys k s x wf i ix. unfold protocol_call_order, protocol_deps. cbn [fst].
  set (local := fold_left _ inputs cdeps).
  assert (G : exists s', dget k local = Some s' /\ In x s').
  { unfold local. clear local. assert (B : exists s', dget k cdeps = Some s' /\ In x s').
    { exists s. split; [|exact ix]. apply In_dget; assumption. }
    clear i ix s wf. revert cdeps B. induction inputs as [|[k' ins] inputs IH]; intros cdeps (s & e & ix); [exists s; auto|].
    simpl. apply IH. unfold add_inputs. destruct ins as [|a ins]; [exists s; auto|].
    destruct (eq_dec k k') as [<-|n].
    - rewrite dget_dset_same. eexists. split; [reflexivity|]. rewrite e. unfold set_union. apply in_or_app. left. exact ix.
    - rewrite dget_dset_other by congruence. exists s. auto. }
  destruct G as (s' & e & ix'). exists s'. split; [|exact ix']. apply in_map_iff. exists (k, s). cbn [fst snd]. rewrite e. auto.
Qed.
Print Assumptions call_order_keeps_dependencies.

(** The items of an object of a class come once each, and after those they depend on, required or not: by the dependencies of the class and
    by what the values mention *)
Definition DependsOn (cdeps : dict string (list string)) (inputs : list (string * list string)) (x y : string) : Prop :=
  (exists s, In (x, s) cdeps /\ In y s) \/ (exists s, In (x, s) inputs /\ In y s).
Lemma add_inputs_wf d k ins : dwf d -> dwf (add_inputs d k ins).
Proof. intros w. unfold add_inputs. destruct ins; [exact w|]. apply dwf_dset. exact w. Qed.
Lemma add_inputs_spec d k ins x y : dwf d -> (exists s, In (x, s) (add_inputs d k ins) /\ In y s) <-> (exists s, In (x, s) d /\ In y s) \/ (x = k /\ In y ins).
Proof.
  intros w. unfold add_inputs. destruct ins as [|i0 ins].
  - split; [intros h; left; exact h|]. intros [h|[_ []]]. exact h.
  - set (l := i0 :: ins). split.
    + intros (s & i & iy). apply In_dget in i; [|apply dwf_dset; exact w]. destruct (eq_dec x k) as [->|n].
      * rewrite dget_dset_same in i. injection i as <-. unfold set_union in iy. apply in_app_or in iy. destruct iy as [iy|iy].
        -- left. destruct (dget k d) as [s|] eqn:e; [|destruct iy]. exists s. split; [apply dget_In; exact e|exact iy].
        -- right. split; [reflexivity|]. apply filter_In in iy. apply (dedup_In EqDec_string). exact (proj1 iy).
      * rewrite dget_dset_other in i by congruence. left. exists s. split; [apply dget_In; exact i|exact iy].
    + intros h. destruct (eq_dec x k) as [->|n].
      * exists (set_union (match dget k d with Some s => s | None => [] end) l). split; [apply dget_In; apply dget_dset_same|].
        unfold set_union. apply in_or_app. destruct h as [(s & i & iy)|[_ iy]].
        -- left. rewrite (In_dget _ _ _ w i). exact iy.
        -- set (u := match dget k d with Some s => s | None => [] end). destruct (mem_spec EqDec_string y u) as [m|m]; [left; exact m|right].
           apply filter_In. split; [apply (dedup_In EqDec_string); exact iy|]. apply negb_true_iff, (mem_not_In EqDec_string). exact m.
      * destruct h as [(s & i & iy)|[e _]]; [|congruence]. exists s. split; [|exact iy]. apply dget_In. rewrite dget_dset_other by congruence. apply In_dget; assumption.
Qed.
Lemma protocol_deps_spec cdeps inputs : dwf cdeps -> dwf (snd (protocol_deps cdeps inputs)) /\
  forall x y, (exists s, In (x, s) (snd (protocol_deps cdeps inputs)) /\ In y s) <-> DependsOn cdeps inputs x y.
Proof.
  unfold protocol_deps, DependsOn. cbn [snd]. revert cdeps. induction inputs as [|[k ins] inputs IH]; intros cdeps w; cbn [fold_left fst snd].
  - split; [exact w|]. intros x y. split; [intros h; left; exact h|]. intros [h|(s & [] & _)]. exact h.
  - destruct (IH _ (add_inputs_wf cdeps k ins w)) as [h1 h2]. split; [exact h1|]. intros x y. rewrite h2, (add_inputs_spec cdeps k ins x y w). split.
    + intros [[h|[-> iy]]|(s & i & iy)]; [left; exact h| |].
      * right. exists ins. split; [left; reflexivity|exact iy].
      * right. exists s. split; [right; exact i|exact iy].
    + intros [h|(s & [i|i] & iy)]; [left; left; exact h| |].
      * injection i as -> ->. left. right. split; [reflexivity|exact iy].
      * right. exists s. split; [exact i|exact iy].
Qed.
Theorem object_order : forall cdeps inputs keys l, dwf cdeps -> snd (protocol_call_order cdeps inputs keys) = (l, Ok tt) ->
  NoDup l /\ (forall x, In x l <-> In x keys) /\
  forall x y, In x keys -> In y keys -> x <> y -> DependsOn cdeps inputs x y -> Before y x l.
Proof.
  intros cdeps inputs keys l w h. unfold protocol_call_order in h. cbn [snd] in h. destruct (protocol_deps_spec cdeps inputs w) as [wd sd].
  set (deps := snd (protocol_deps cdeps inputs)) in *.
  destruct (dedup keys) as [|u0 us] eqn:ek.
  - assert (en : forall x, ~ In x keys) by (intros x i; apply (dedup_In EqDec_string) in i; rewrite ek in i; exact i).
    unfold call_order in h. rewrite ek in h. cbn in h. injection h as <-. split; [constructor|]. split; [|intros x y i; destruct (en x i)].
    intros x. split; [intros []|apply en].
  - assert (ac : ~ exists z, Cyclic deps z).
    { intros cy. pose proof (proj2 (call_order_cycle [] keys deps wd cy)) as q. rewrite h in q. cbn [snd] in q. discriminate q.
      exists u0. split; [|intros []]. apply (dedup_In EqDec_string). rewrite ek. left. reflexivity. }
    destruct (call_order_complete [] keys deps wd (NoDup_nil _) ac) as (l' & e & nd & hin & _). rewrite h in e. injection e as <-.
    split; [exact nd|]. split; [intros x; rewrite hin; split; [intros [[]|i]; exact i|intros i; right; exact i]|].
    intros x y ix iy ne dp. pose proof (call_order_dependencies [] keys deps x y wd ac ix iy (fun z => z) (fun z => z)) as q. rewrite h in q. apply q.
    split; [|congruence]. destruct (proj2 (sd x y) dp) as (s & i & j). exists s. split; [exact i|exact j].
Qed.
Print Assumptions object_order.
Example object_order_case : snd (protocol_call_order [("total", ["unit"])]%string [("unit", ["rate"])]%string ["total"; "unit"; "rate"; "note"]%string) =
  (["rate"; "unit"; "total"; "note"]%string, Ok tt).
Proof. reflexivity. Qed.
(** a cycle is refused as soon as there is an item *)
Theorem object_order_cycle : forall cdeps inputs keys, dwf cdeps -> keys <> [] -> (exists x, Cyclic (snd (protocol_deps cdeps inputs)) x) ->
  snd (snd (protocol_call_order cdeps inputs keys)) = Err AssertionError.
Proof.
  intros cdeps inputs keys w ne cy. unfold protocol_call_order. cbn [snd]. apply call_order_cycle; [exact (proj1 (protocol_deps_spec cdeps inputs w))|exact cy|].
  destruct keys as [|k keys]; [congruence|]. exists k. split; [left; reflexivity|intros []].
Qed.
Print Assumptions object_order_cycle.

Example call_order_ex :
  call_order ["id"]%string ["d"; "b"; "a"; "c"; "z"]%string [("d", ["b"; "c"]); ("b", ["a"]); ("c", ["a"; "q"])]%string
    = (["id"; "a"; "b"; "c"; "d"; "z"]%string, Ok tt)
  /\ snd (call_order [] ["a"; "b"]%string [("a", ["b"]); ("b", ["a"])]%string) = Err AssertionError.
Proof. split; reflexivity. Qed.

(** * C28 *)
Theorem object_validate_iff : forall js iv c excludes v r, dwf v ->
  object_validate js iv c excludes v = Ok r <->
  (forall k, In k (ob_required c) -> In k (dkeys v)) /\
  (ob_additional c = false -> forall k, In k (dkeys v) -> In k (ob_declared c) \/ exists p, In p (ob_patterns c) /\ p k = true) /\
  js (VDict v) = false /\
  Forall2 (fun a b => fst a = fst b /\
    (if mem (fst a) excludes then snd b = snd a else match snd a with VNone => snd b = VNone | _ => iv (fst a) (snd a) = Ok (snd b) end)) v r.
Proof.
  intros js iv c excludes v r wf. unfold object_validate.
  assert (A : (existsb (undeclared c) (dkeys v) && negb (ob_additional c))%bool = false <->
              (ob_additional c = false -> forall k, In k (dkeys v) -> In k (ob_declared c) \/ exists p, In p (ob_patterns c) /\ p k = true)).
  { destruct (ob_additional c); cbn [negb]; [rewrite andb_false_r; split; [discriminate|reflexivity]|]. rewrite andb_true_r. split.
    - intros h _ k i. unfold undeclared in h.
      assert (hk : (negb (mem k (ob_declared c)) && negb (existsb (fun p => p k) (ob_patterns c)))%bool = false).
      { destruct (_ && _)%bool eqn:e; [|reflexivity]. rewrite <- h. symmetry. apply existsb_exists. exists k. auto. }
      destruct (mem_spec EqDec_string k (ob_declared c)); [auto|]. right. cbn [negb andb] in hk. apply negb_false_iff, existsb_exists in hk. exact hk.
    - intros h. destruct (existsb (undeclared c) (dkeys v)) eqn:e; [|reflexivity]. apply existsb_exists in e. destruct e as (k & i & u).
      unfold undeclared in u. apply andb_true_iff in u. destruct u as [u1 u2]. apply negb_true_iff in u1, u2. apply (mem_not_In EqDec_string) in u1.
      destruct (h eq_refl k i) as [?|(p & ip & pk)]; [contradiction|]. rewrite <- u2. symmetry. apply existsb_exists. exists p. auto. }
  assert (R : forallb (fun k => dmem k v) (ob_required c) = true <-> forall k, In k (ob_required c) -> In k (dkeys v)).
  { rewrite forallb_forall. split; intros h k i; specialize (h k i); apply dmem_In; exact h. }
  assert (V : forall l r, validate_props iv excludes l = Ok r <->
     Forall2 (fun a b => fst a = fst b /\
    (if mem (fst a) excludes then snd b = snd a else match snd a with VNone => snd b = VNone | _ => iv (fst a) (snd a) = Ok (snd b) end)) l r).
  { clear. induction l as [|[k x] l IH]; intros r; cbn [validate_props].
    - split; [injection 1 as <-; constructor|]. inversion 1. reflexivity.
    - split.
      + intros h. destruct (if mem k excludes then Ok x else match x with VNone => Ok x | _ => iv k x end) as [x'|] eqn:ex; [|discriminate]. cbn [rbind] in h.
        destruct (validate_props iv excludes l) as [r'|] eqn:er; [|discriminate]. cbn [rbind] in h. injection h as <-.
        constructor; [|apply IH; reflexivity]. cbn [fst snd]. split; [reflexivity|]. destruct (mem k excludes); [congruence|].
        destruct x; try exact ex. congruence.
      + inversion 1 as [|? [k' x'] ? r' [e1 e2] f]; subst. cbn [fst snd] in *. subst k'.
        assert (ex : (if mem k excludes then Ok x else match x with VNone => Ok x | _ => iv k x end) = Ok x').
        { destruct (mem k excludes); [congruence|]. destruct x; try exact e2. congruence. }
        rewrite ex. cbn [rbind]. apply IH in f. rewrite f. reflexivity. }
  destruct (existsb (undeclared c) (dkeys v) && negb (ob_additional c))%bool.
  - split; [discriminate|]. intros (_ & h & _). apply A in h. discriminate.
  - destruct (forallb (fun k => dmem k v) (ob_required c)); cbn [negb].
    + destruct (js (VDict v)).
      * split; [discriminate|]. intros (_ & _ & h & _). discriminate.
      * rewrite V. tauto.
    + split; [discriminate|]. intros (h & _). apply R in h. discriminate.
Qed.
Print Assumptions object_validate_iff.

(** when it refuses for its keys, it is with InvalidValue *)
Theorem object_validate_refuses : forall js iv c excludes v,
  ((exists k, In k (ob_required c) /\ ~ In k (dkeys v)) \/
   (ob_additional c = false /\ exists k, In k (dkeys v) /\ ~ In k (ob_declared c) /\ forall p, In p (ob_patterns c) -> p k = false)) ->
  object_validate js iv c excludes v = Err InvalidValue.
Proof.
  intros js iv c excludes v h. unfold object_validate.
  destruct (existsb (undeclared c) (dkeys v) && negb (ob_additional c))%bool eqn:e; [reflexivity|].
  destruct h as [(k & i & n)|(ad & k & i & n & p)].
  - destruct (forallb (fun k => dmem k v) (ob_required c)) eqn:f; [|reflexivity]. rewrite forallb_forall in f. specialize (f k i).
    apply dmem_In in f. contradiction.
  - rewrite ad, andb_true_r in e. exfalso. assert (u : existsb (undeclared c) (dkeys v) = true); [|congruence].
    apply existsb_exists. exists k. split; [exact i|]. unfold undeclared. apply andb_true_iff. rewrite !negb_true_iff. split.
    + apply mem_not_In, n.
    + destruct (existsb (fun q => q k) (ob_patterns c)) eqn:ee; [|reflexivity]. apply existsb_exists in ee. destruct ee as (q & iq & qk).
      rewrite (p q iq) in qk. discriminate.
Qed.
Print Assumptions object_validate_refuses.

Example object_validate_ex :
  let c := {| ob_required := ["id"]; ob_declared := ["id"; "name"]; ob_patterns := [fun k => is_prefix ["x"%char] (chars k)]; ob_additional := false |}%string in
  let iv := fun (k : string) (v : pyval) => if is_str v then Ok v else Err InvalidValue in
  object_validate (fun _ => false) iv c [] [("id", VStr "1"); ("xa", VStr "2"); ("name", VNone)]%string = Ok [("id", VStr "1"); ("xa", VStr "2"); ("name", VNone)]%string
  /\ object_validate (fun _ => false) iv c [] [("xa", VStr "2")]%string = Err InvalidValue
  /\ object_validate (fun _ => false) iv c ["id"]%string [("id", VStr "1"); ("other", VStr "2")]%string = Err InvalidValue
  /\ object_validate (fun _ => false) iv c [] [("id", VInt 1)]%string = Err InvalidValue
  /\ object_validate (fun _ => false) iv c ["id"]%string [("id", VInt 1)]%string = Ok [("id", VInt 1)]%string.
Proof. repeat split. Qed.

(** * C35 *)
Lemma included_str k l ex only nd : dmem k l = true ->
  is_included (KStr k) (VDict l) (map KStr ex) (map KStr only) nd =
  Ok (negb (mem k ex) && (match only with [] => true | _ => mem k only end) && (negb nd || negb (match dget k l with Some v => beq v VNone | None => false end)))%bool.
Proof.
  intros d. unfold is_included.
  assert (E : forall m, existsb (fun k0 => match k0, KStr k with KStr a, KStr b => beq a b | KInt a, KInt b => Z.eqb a b | _, _ => false end) (map KStr m) = mem k m).
  { induction m as [|x m IH]; [reflexivity|]. cbn [map existsb mem]. rewrite IH. unfold beq. destruct (eq_dec x k), (eq_dec k x); try congruence; reflexivity. }
  rewrite !E. destruct (mem k ex); [reflexivity|]. cbn [negb andb].
  destruct only as [|o only]; cbn [map].
  - rewrite d. cbn [rbind getitem andb]. unfold dmem in d. destruct (dget k l); [|discriminate]. cbn [rbind]. destruct nd; reflexivity.
  - destruct (mem k (o :: only)); cbn [negb andb]; [|reflexivity].
    rewrite d. cbn [rbind getitem andb]. unfold dmem in d. destruct (dget k l); [|discriminate]. cbn [rbind]. destruct nd; reflexivity.
Qed.

(** the keys listed by one call, given the exclusions in force *)
Theorem print_order_keys : forall shared c k, dwf (pc_value c) ->
  let excl := (match pc_excludes c with Some e => e | None => shared end) ++ (if pc_no_readOnly c then pc_readOnly c else []) in
  In k (snd (print_order shared c)) <->
  exists v, In (k, v) (pc_value c) /\
    (In k (pc_required c) \/ (~ In k excl /\ (pc_only c = [] \/ In k (pc_only c)) /\ (pc_no_defaults c = true -> v <> VNone))) /\
    (pc_no_defaults c = true -> pc_default c k <> Some v).
Proof.
  intros shared c k wf excl. unfold print_order. cbn [snd].
  replace (if pc_no_readOnly c then (match pc_excludes c with Some e => e | None => shared end) ++ pc_readOnly c
           else match pc_excludes c with Some e => e | None => shared end) with excl
    by (unfold excl; destruct (pc_no_readOnly c); [reflexivity|apply app_nil_r]).
  generalize excl. clear excl. intros excl. unfold print_order_obj, print_order_base. rewrite !filter_In, in_app_iff, !filter_In.
  assert (D : (In k (dkeys (pc_value c)) /\ mem k (pc_required c) = true \/
     In k (dkeys (pc_value c)) /\ negb (mem k (filter (fun k0 => mem k0 (pc_required c)) (dkeys (pc_value c)))) = true) <-> In k (dkeys (pc_value c))).
  { split; [tauto|]. intros h. destruct (mem k (pc_required c)) eqn:e; [auto|]. right. split; [exact h|]. apply negb_true_iff, mem_not_In.
    rewrite filter_In. intros [_ h']. congruence. }
  rewrite D. clear D. split.
  - intros [[ik inc] nd]. assert (dm : dmem k (pc_value c) = true) by (apply dmem_In; exact ik).
    rewrite included_str in inc by exact dm. unfold dmem in dm. destruct (dget k (pc_value c)) as [v|] eqn:ev; [|discriminate].
    exists v. split; [apply dget_In in ev; assumption|]. split.
    + apply orb_true_iff in inc. destruct inc as [h|h]; [left; apply (mem_In EqDec_string); exact h|right].
      apply andb_true_iff in h. destruct h as [h h3]. apply andb_true_iff in h. destruct h as [h1 h2].
      apply negb_true_iff, (mem_not_In EqDec_string) in h1. split; [exact h1|]. split.
      * destruct (pc_only c); [auto|right; apply (mem_In EqDec_string); exact h2].
      * intros e. rewrite e in h3. cbn [negb orb] in h3. apply negb_true_iff, beq_false in h3. exact h3.
    + intros e. rewrite e in nd. cbn [andb] in nd. destruct (pc_default c k) as [d|]; [|discriminate].
      apply negb_true_iff, beq_false in nd. congruence.
  - intros (v & iv & inc & nd). assert (ev : dget k (pc_value c) = Some v) by (apply In_dget; assumption).
    assert (dm : dmem k (pc_value c) = true) by (unfold dmem; rewrite ev; reflexivity).
    assert (ik : In k (dkeys (pc_value c))) by (apply dmem_In; exact dm).
    split; [split; [exact ik|]|].
    + rewrite included_str by exact dm. rewrite ev. apply orb_true_iff. destruct inc as [h|(h1 & h2 & h3)]; [left; apply mem_In, h|right].
      rewrite (proj2 (mem_not_In EqDec_string k excl) h1). cbn [negb andb]. apply andb_true_iff. split.
      * destruct (pc_only c); [reflexivity|]. destruct h2 as [h2|h2]; [discriminate|]. apply mem_In, h2.
      * destruct (pc_no_defaults c); [|reflexivity]. cbn [negb orb]. apply negb_true_iff, beq_false, h3. reflexivity.
    + rewrite ev. destruct (pc_no_defaults c); [|reflexivity]. cbn [andb]. specialize (nd eq_refl).
      destruct (pc_default c k) as [d|]; [|reflexivity]. apply negb_true_iff, beq_false. congruence.
Qed.
Print Assumptions print_order_keys.

(** each at most once, required ones first *)
Theorem print_order_once : forall shared c, dwf (pc_value c) ->
  NoDup (snd (print_order shared c)) /\
  exists l1 l2, snd (print_order shared c) = l1 ++ l2 /\ (forall k, In k l1 -> In k (pc_required c)) /\ (forall k, In k l2 -> ~ In k (pc_required c)).
Proof.
  intros shared c wf. unfold print_order. cbn [snd]. generalize (if pc_no_readOnly c then (match pc_excludes c with Some e => e | None => shared end) ++ pc_readOnly c
           else match pc_excludes c with Some e => e | None => shared end). intros excl.
  unfold print_order_obj, print_order_base. set (req := filter (fun k => mem k (pc_required c)) (dkeys (pc_value c))).
  set (oth := filter (fun k => negb (mem k req)) (dkeys (pc_value c))). split.
  - apply NoDup_filter, NoDup_filter, NoDup_app_intro.
    + apply NoDup_filter, wf.
    + apply NoDup_filter, wf.
    + intros x h1 h2. unfold oth in h2. apply filter_In in h2. destruct h2 as [_ h2]. apply negb_true_iff, (mem_not_In EqDec_string) in h2. contradiction.
  - rewrite !filter_app. eexists _, _. split; [reflexivity|]. split; intros k h; apply filter_In in h; destruct h as [h _]; apply filter_In in h; destruct h as [h _].
    + unfold req in h. apply filter_In in h. apply (mem_In EqDec_string). tauto.
    + unfold oth in h. apply filter_In in h. destruct h as [ik h]. apply negb_true_iff, (mem_not_In EqDec_string) in h.
      intros i. apply h. unfold req. apply filter_In. split; [exact ik|]. apply mem_In, i.
Qed.
Print Assumptions print_order_once.

(** calls that give their own exclusions, or do not drop read-only properties, do not influence others *)
Theorem print_order_independent : forall shared cs c, (forall c', In c' cs -> pc_excludes c' <> None \/ pc_no_readOnly c' = false) ->
  print_calls shared (cs ++ [c]) = print_calls shared cs ++ [snd (print_order shared c)].
Proof.
  intros shared cs c h. revert h. induction cs as [|c' cs IH]; intros h; [reflexivity|]. cbn [app print_calls].
  assert (E : fst (print_order shared c') = shared).
  { unfold print_order. cbn [fst]. destruct (h c' (or_introl eq_refl)) as [n| ->]; destruct (pc_excludes c'); try contradiction; reflexivity. }
  rewrite E, IH; [reflexivity|]. intros; apply h; right; assumption.
Qed.
Print Assumptions print_order_independent.

(** FINDING: a call without exclusions that drops read-only properties (repr does it) makes every later call without
    exclusions (str does it), on any object of any class, drop properties of those names *)
Theorem print_order_leak_refuted : exists c1 c2 k,
  In k (snd (print_order [] c2)) /\ pc_readOnly c2 = [] /\
  exists l1 l2, print_calls [] [c1; c2] = [l1; l2] /\ ~ In k l2.
Proof.
  exists {| pc_required := []; pc_readOnly := ["id"%string]; pc_excludes := None; pc_only := []; pc_no_defaults := true; pc_no_readOnly := true;
            pc_default := fun _ => None; pc_value := [("id", VInt 1); ("a", VInt 2)]%string |},
         {| pc_required := []; pc_readOnly := []; pc_excludes := None; pc_only := []; pc_no_defaults := true; pc_no_readOnly := false;
            pc_default := fun _ => None; pc_value := [("id", VInt 7); ("b", VInt 2)]%string |}, "id"%string.
  split; [vm_compute; auto|]. split; [reflexivity|]. eexists _, _. split; [vm_compute; reflexivity|]. simpl. intros [e|[]]. discriminate.
Qed.
Print Assumptions print_order_leak_refuted.

Example print_order_ex :
  print_order [] {| pc_required := ["id"]; pc_readOnly := ["ro"]; pc_excludes := Some ["x"]; pc_only := []; pc_no_defaults := true; pc_no_readOnly := true;
     pc_default := fun k => if beq k "d" then Some (VInt 0) else None;
     pc_value := [("x", VInt 1); ("ro", VInt 2); ("d", VInt 0); ("n", VNone); ("v", VStr "s"); ("id", VInt 5)] |}%string = ([], ["id"; "v"]%string).
Proof. reflexivity. Qed.
