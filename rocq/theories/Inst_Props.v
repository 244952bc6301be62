(** Properties of instances (C30, C31, C32, C33). *)
From Verif Require Import Cmp_Spec Cmp_Proofs Inst_Model Inst_Spec Inst_Proofs.
Local Open Scope string_scope.

(** * C30: a property read returns the evaluation of the latest assignment *)
Theorem read_coherent : forall c heap dom A0 ops A s k,
  Regular c heap dom -> History c heap dom A0 ops A s ->
  exists r s', step c (GetItem k) s = (r, s') /\ Value c heap A k r /\ forall r', Value c heap A k r' -> r' = r.
Proof.
  intros c heap dom A0 ops A s k R h. destruct (read_value c heap dom R A0 ops A s k h) as (r & s' & e & v).
  exists r, s'. split; [exact e|]. split; [exact v|]. intros r' v'. eapply Value_fun; eassumption.
Qed.
Print Assumptions read_coherent.

(** reading changes nothing that can be read *)
Theorem read_again_same : forall c heap dom A0 ops A s k k' r s1 r1 s2,
  Regular c heap dom -> History c heap dom A0 ops A s ->
  step c (GetItem k) s = (r, s1) -> step c (GetItem k') s1 = (r1, s2) -> exists s3, step c (GetItem k') s = (r1, s3).
Proof.
  intros c heap dom A0 ops A s k k' r s1 r1 s2 R h e1 e2.
  assert (h' : History c heap dom A0 (ops ++ [GetItem k]) A s1).
  { destruct (history_inv c heap dom R _ _ _ _ h) as (hA & hK & _). exact (history_step c heap dom A0 ops A s (GetItem k) r s1 h e1 I hA hK). }
  destruct (read_coherent c heap dom A0 ops A s k' R h) as (ra & sa & ea & _ & ua).
  destruct (read_coherent c heap dom A0 _ A s1 k' R h') as (rb & sb & eb & vb & _).
  rewrite e2 in eb. injection eb as -> ->. apply ua in vb. subst rb. eauto.
Qed.
Print Assumptions read_again_same.

(** a class whose expressions, written as the name of a property, read 100 divided by that property, or the content of
    the mutable value it refers to; "total" depends on "part" *)
Definition demo_eval (heap : list pyval) (k : string) (raw : pyval) (e : env) : res pyval :=
  match raw with
  | VStr n => match dget n e with
              | Some (VInt z) => if Z.eqb z 0 then Err (UserError 0) else Ok (VInt (100 / z))
              | Some (VObj i) => Ok (nth i heap VNone)
              | _ => Err NameError
              end
  | _ => Ok raw
  end.
Definition demo (lazy : bool) : icls := {|
  ic_deps := [("total", ["part"])]; ic_prim := fun _ => true; ic_declared := fun _ => true; ic_additional := false;
  ic_required := ["a"]; ic_readonly := ["fixed"]; ic_translated := []; ic_lazy := lazy; ic_limit := 20;
  ic_expr := fun v => match v with VStr _ => true | _ => false end;
  ic_ins := fun _ v => match v with VStr n => [n] | _ => [] end;
  ic_getter := fun _ => None; ic_eval := demo_eval |}.
(** properties used with anything but booleans and collections *)
Definition demo_kind (k : string) (v : pyval) : Prop := match v with VNone | VInt _ | VStr _ | VObj _ => True | _ => False end.
Lemma demo_kind_id k u v : demo_kind k u -> demo_kind k v -> PyEq u v -> u = v.
Proof.
  intros hu hv h. inversion h as [|a b z h1 h2| | | | |]; subst; try reflexivity; try contradiction. inversion h1; subst; try contradiction.
  inversion h2; subst; try contradiction. reflexivity.
Qed.
Example demo_regular : forall lazy heap, Forall (demo_kind "") heap -> Regular (demo lazy) heap demo_kind.
Proof.
  intros lazy heap hh. constructor.
  - apply demo_kind_id.
  - intros k [] e v hk hE h; try contradiction; cbn in h; try (injection h as <-; exact I).
    destruct (dget s e) as [[]|]; try discriminate; [destruct (_ =? 0)%Z; [discriminate|injection h as <-; exact I]|].
    injection h as <-. destruct (Nat.lt_ge_cases n (length heap)) as [hn|hn].
    + rewrite Forall_forall in hh. apply hh, nth_In, hn.
    + rewrite nth_overflow by exact hn. exact I.
  - intros k [] e e' h; cbn; try reflexivity. rewrite h. reflexivity.
  - intros k [] h _; try reflexivity. discriminate.
  - intros k [] e e' h; try reflexivity. discriminate.
  - intros k [] e v h; try (injection 1 as <-; split; reflexivity). discriminate.
  - intros k e. split; reflexivity.
  - reflexivity.
  - reflexivity.
Qed.
Definition demo_rank (k : string) : nat :=
  if eq_dec k "total" then 3 else if eq_dec k "part" then 2 else if eq_dec k "k" then 1 else 0.
(** dependencies that follow [demo_rank] are acyclic *)
Lemma demo_acyclic lazy A :
  (forall k n, dget k A = Some (VStr n) -> demo_rank n < demo_rank k) -> Acyclic (demo lazy) A.
Proof.
  intros h. exists demo_rank. split; [|split].
  - intros k raw k' e i. unfold inputs_of in i. apply in_app_or in i. destruct i as [i|i].
    + cbn [ic_deps demo dget] in i. destruct (eq_dec k "total") as [->|]; [|destruct i]. destruct i as [<-|[]]. vm_compute. lia.
    + cbn [ic_prim ic_ins demo] in i. destruct raw; cbn [In] in i; try contradiction. destruct i as [<-|[]]. eapply h. exact e.
  - intros d s k [e|[]] i. injection e as <- <-. destruct i as [<-|[]]. vm_compute. lia.
  - intros k. unfold demo_rank. cbn [ic_limit demo]. destruct (eq_dec k "total"), (eq_dec k "part"), (eq_dec k "k"); lia.
Qed.
Lemma ranked_check A : forallb (fun p => match snd p with VStr n => Nat.ltb (demo_rank n) (demo_rank (fst p)) | _ => true end) A = true ->
  forall k n, dget k A = Some (VStr n) -> demo_rank n < demo_rank k.
Proof. intros h k n e. apply dget_In in e. rewrite forallb_forall in h. apply h in e. apply Nat.ltb_lt. exact e. Qed.
Local Ltac acyclic := apply demo_acyclic; apply ranked_check; reflexivity.

Lemma history_snoc c heap dom A0 ops A s o : History c heap dom A0 ops A s -> admissible c o (fst (step c o s)) A ->
  Acyclic c (assigned_after c o A) -> Kinds dom (assigned_after c o A) -> History c heap dom A0 (ops ++ [o]) (assigned_after c o A) (snd (step c o s)).
Proof. intros h a b d. eapply history_step; [exact h|apply surjective_pairing|exact a|exact b|exact d]. Qed.
Lemma kinds_check (A : dict string pyval) : forallb (fun p => match snd p with VNone | VInt _ | VStr _ | VObj _ => true | _ => false end) A = true -> Kinds demo_kind A.
Proof. intros h k v e. apply dget_In in e. rewrite forallb_forall in h. apply h in e. cbn in e. destruct v; try discriminate; exact I. Qed.
Local Ltac kinds := apply kinds_check; reflexivity.

(** reads follow the chain total -> part -> k -> a through several assignments *)
Definition demo_store : dict string pyval :=
  [("a", VInt 5); ("k", VStr "a"); ("part", VStr "k"); ("total", VStr "part"); ("fixed", VInt 1)].
Example read_coherent_case : exists A s,
  History (demo true) [] demo_kind demo_store [GetItem "total"; SetItem "a" (VInt 10); GetItem "part"] A s /\
  fst (step (demo true) (GetItem "total") (fresh demo_store [])) = Ok (VInt 20) /\
  fst (step (demo true) (GetItem "total") s) = Ok (VInt 10) /\ Value (demo true) [] A "total" (Ok (VInt 10)).
Proof.
  assert (h : exists A s, History (demo true) [] demo_kind demo_store [GetItem "total"; SetItem "a" (VInt 10); GetItem "part"] A s /\
    fst (step (demo true) (GetItem "total") s) = Ok (VInt 10)).
  { do 2 eexists. split.
    - eapply (history_snoc _ _ _ _ [GetItem "total"; SetItem "a" (VInt 10)] _ _ (GetItem "part"));
        [eapply (history_snoc _ _ _ _ [GetItem "total"] _ _ (SetItem "a" (VInt 10)));
           [eapply (history_snoc _ _ _ _ [] _ _ (GetItem "total")); [apply history_new; [acyclic|kinds]|exact I|acyclic|kinds]|left; reflexivity|acyclic|kinds]
        |exact I|acyclic|kinds].
    - vm_compute. reflexivity. }
  destruct h as (A & s & h & e). exists A, s. split; [exact h|]. split; [reflexivity|]. split; [exact e|].
  destruct (read_coherent _ _ _ _ _ _ _ "total" (demo_regular true [] (Forall_nil _)) h) as (r & s' & e' & v & _). rewrite e' in e. cbn [fst] in e.
  subst r. exact v.
Qed.

(** ** what breaks it *)
(** eager loading: assigning the same expression when it cannot be evaluated raises, and leaves the old result to be read *)
Theorem read_after_failed_assignment_refuted : exists c heap A ops s k v,
  Regular c heap demo_kind /\ Kinds demo_kind A /\ Acyclic c A /\ forallb (fun o => match o with SetItem _ _ | GetItem _ => true | _ => false end) ops = true /\
  s = snd (run c ops (fresh A heap)) /\
  fst (step c (GetItem k) s) = Ok v /\ Value c heap (fold_left (fun A o => assigned_after c o A) ops A) k (Err (UserError 0)).
Proof.
  exists (demo false), [], [("a", VInt 5); ("k", VStr "a")], [GetItem "k"; SetItem "a" (VInt 0); SetItem "k" (VStr "a")].
  eexists. exists "k", (VInt 20). split; [apply demo_regular; constructor|]. split; [kinds|]. split; [acyclic|]. split; [reflexivity|]. split; [reflexivity|].
  split; [vm_compute; reflexivity|].
  apply (value_eval (demo false) [] _ "k" (VStr "a") [("a", VInt 0)]); [reflexivity|].
  eapply inputs_ok; [|apply inputs_nil]. apply (value_eval (demo false) [] _ "a" (VInt 0) []); [reflexivity|apply inputs_nil].
Qed.
Print Assumptions read_after_failed_assignment_refuted.

(** a mutable input changed in place is not noticed: the snapshot of the inputs holds the same object *)
Theorem read_after_mutation_refuted : exists c heap A ops k v v',
  Regular c heap demo_kind /\ Kinds demo_kind A /\ Acyclic c A /\ v <> v' /\
  let s := snd (run c ops (fresh A heap)) in
  fst (step c (GetItem k) s) = Ok v /\ Value c (i_heap s) A k (Ok v').
Proof.
  exists (demo true), [VInt 1], [("a", VObj 0); ("k", VStr "a")], [GetItem "k"; Mutate 0 (VInt 2)], "k", (VInt 1), (VInt 2).
  split; [apply demo_regular; repeat constructor|]. split; [kinds|]. split; [acyclic|]. split; [discriminate|]. split; [vm_compute; reflexivity|].
  cbv zeta. change (i_heap _) with [VInt 2].
  apply (value_eval (demo true) [VInt 2] _ "k" (VStr "a") [("a", VObj 0)]); [reflexivity|].
  eapply inputs_ok; [|apply inputs_nil]. apply (value_eval (demo true) [VInt 2] _ "a" (VObj 0) []); [reflexivity|apply inputs_nil].
Qed.
Print Assumptions read_after_mutation_refuted.

(** with a getter that returns None for an object property, every second read of a dependent property is None *)
Definition getter_class : icls := {|
  ic_deps := [("label", ["owner"])]; ic_prim := fun k => negb (beq k "owner"); ic_declared := fun _ => true; ic_additional := false;
  ic_required := []; ic_readonly := []; ic_translated := []; ic_lazy := true; ic_limit := 20;
  ic_expr := fun _ => false; ic_ins := fun _ _ => [];
  ic_getter := fun k => if eq_dec k "owner" then Some (fun _ => VNone) else None; ic_eval := fun _ _ raw _ => Ok raw |}.
Theorem read_twice_refuted : exists c A k v,
  fst (run c [GetItem k; GetItem k; GetItem k] (fresh A [])) = [Ok v; Ok VNone; Ok v] /\ v <> VNone /\
  forall heap k raw e, ic_eval c heap k raw e = Ok raw.
Proof.
  exists getter_class, [("owner", VNone); ("label", VStr "x")], "label", (VStr "x").
  split; [vm_compute; reflexivity|]. split; [discriminate|reflexivity].
Qed.
Print Assumptions read_twice_refuted.

(** a property with a default, assigned None, reads None without inputs and its default with one *)
Definition default_class (deps : dict string (list string)) : icls := {|
  ic_deps := deps; ic_prim := fun _ => true; ic_declared := fun _ => true; ic_additional := false;
  ic_required := []; ic_readonly := []; ic_translated := []; ic_lazy := true; ic_limit := 20;
  ic_expr := fun _ => false; ic_ins := fun _ _ => []; ic_getter := fun _ => None;
  ic_eval := fun _ _ raw _ => match raw with VNone => Ok (VInt 7) | _ => Ok raw end |}.
Theorem assign_none_default_refuted : exists deps A k,
  fst (run (default_class []) [SetItem k VNone; GetItem k] (fresh A [])) = [Ok VNone; Ok VNone] /\
  fst (run (default_class deps) [SetItem k VNone; GetItem k] (fresh A [])) = [Ok VNone; Ok (VInt 7)].
Proof. exists [("k", ["a"])], [("a", VInt 1); ("k", VInt 2)], "k". split; vm_compute; reflexivity. Qed.
Print Assumptions assign_none_default_refuted.

(** an additional property assigned a second expression with the same inputs reads as the text of the expression *)
Definition extra_class : icls := {|
  ic_deps := []; ic_prim := fun _ => true; ic_declared := fun k => beq k "a"; ic_additional := true;
  ic_required := []; ic_readonly := []; ic_translated := []; ic_lazy := false; ic_limit := 20;
  ic_expr := fun v => match v with VStr _ => true | _ => false end;
  ic_ins := fun _ v => match v with VStr _ => ["a"] | _ => [] end; ic_getter := fun _ => None;
  ic_eval := fun _ _ raw e => match raw with
                              | VStr "`a+1`" => match dget "a" e with Some (VInt z) => Ok (VInt (z + 1)) | _ => Err NameError end
                              | VStr "`a+2`" => match dget "a" e with Some (VInt z) => Ok (VInt (z + 2)) | _ => Err NameError end
                              | _ => Ok raw end |}.
Theorem additional_expression_refuted : exists A k r1 r2,
  fst (run extra_class [SetItem k r1; GetItem k; SetItem k r2; GetItem k] (fresh A [])) = [Ok VNone; Ok (VInt 6); Ok VNone; Ok r2] /\
  Value extra_class [] (dset k r2 A) k (Ok (VInt 7)).
Proof.
  exists [("a", VInt 5)], "x", (VStr "`a+1`"), (VStr "`a+2`"). split; [vm_compute; reflexivity|].
  apply (value_eval extra_class [] _ "x" (VStr "`a+2`") [("a", VInt 5)]); [reflexivity|].
  eapply inputs_ok; [|apply inputs_nil]. apply (value_eval extra_class [] _ "a" (VInt 5) []); [reflexivity|apply inputs_nil].
Qed.
Print Assumptions additional_expression_refuted.

(** * C31: assigning invalidates exactly the dependents *)
Theorem assign_invalidates : forall c s k v orig,
  ic_declared c k = true -> ~ In k (ic_readonly c) -> ic_lazy c = true ->
  Acyclic c [] -> dget k (i_data s) = Some orig -> ic_prim c k = false \/ ~ PyEq v orig ->
  exists s', step c (SetItem k v) s = (Ok VNone, s') /\ i_data s' = dset k v (i_data s) /\
    forall k', (Dependent c k k' -> dget k' (i_val s') = Some VNone /\ dget k' (i_inp s') = Some []) /\
               (~ Dependent c k k' -> dget k' (i_val s') = dget k' (i_val s) /\ dget k' (i_inp s') = dget k' (i_inp s)).
Proof.
  intros c s k v orig hd hr hl (rank & _ & rk & bounded) ho hv. cbn [step]. unfold set_item.
  rewrite hd, (proj2 (mem_not_In _ _ _) hr). unfold set_data. rewrite ho.
  assert (b : ic_prim c k && val_eq v orig = false).
  { destruct hv as [->|n]; [reflexivity|]. apply val_eq_false in n. rewrite n. apply andb_false_r. }
  rewrite b. destruct (touch_clears c rank rk bounded (ic_limit c) k (i_val s, i_inp s) ltac:(lia)) as (t & et & ht).
  rewrite et, hl. cbn [rbind]. eexists. split; [reflexivity|]. split; [reflexivity|]. intros k'.
  destruct (ht k') as (h1 & _ & h3). split; [exact h1|exact h3].
Qed.
Print Assumptions assign_invalidates.

(** assigning a value equal to the one stored to a primitive property touches no cache *)
Theorem assign_same_keeps_cache : forall c s k v orig,
  ic_declared c k = true -> ~ In k (ic_readonly c) -> ic_lazy c = true -> ic_prim c k = true -> dget k (i_data s) = Some orig -> PyEq v orig ->
  exists s', step c (SetItem k v) s = (Ok VNone, s') /\ i_val s' = i_val s /\ i_inp s' = i_inp s /\ i_data s' = dset k v (i_data s).
Proof.
  intros c s k v orig hd hr hl hp ho he. cbn [step]. unfold set_item. rewrite hd, (proj2 (mem_not_In _ _ _) hr). unfold set_data.
  apply val_eq_spec in he. rewrite ho, hp, he, hl. cbn [andb]. eexists. split; [reflexivity|]. split; [reflexivity|]. split; reflexivity.
Qed.
Print Assumptions assign_same_keeps_cache.

(** True equals 1: assigned to a property that reads 1, it is not noticed, nor is the change of an input *)
Theorem equal_assignment_refuted : forall c s k v orig cv,
  ic_declared c k = true -> ~ In k (ic_readonly c) -> ic_lazy c = true -> ic_prim c k = true -> ic_getter c k = None ->
  (forall k', deps_of c k' = []) -> (forall raw, ic_ins c k raw = []) -> 0 < ic_limit c ->
  dget k (i_data s) = Some orig -> dget k (i_val s) = Some cv -> cv <> VNone -> dget k (i_inp s) = Some [] ->
  PyEq v orig ->
  exists s', step c (SetItem k v) s = (Ok VNone, s') /\ dget k (i_data s') = Some v /\ fst (step c (GetItem k) s') = Ok cv.
Proof.
  intros c s k v orig cv hd hr hl hp hg hno hins hlim ho hc hne hi he.
  destruct (assign_same_keeps_cache c s k v orig hd hr hl hp ho he) as (s' & e & h1 & h2 & h3). exists s'. split; [exact e|].
  assert (hk : dget k (i_data s') = Some v) by (rewrite h3; apply dget_dset_same). split; [exact hk|].
  cbn [step]. unfold read. destruct (ic_limit c) as [|f]; [lia|]. cbn [get_item]. rewrite hk, h1, hc, hd, hg.
  unfold is_outdated. replace (is_none cv && negb (is_none v)) with false by (destruct cv; [congruence|reflexivity..]).
  unfold inputs_with. rewrite hno. cbn [read_all]. rewrite hp, hk, hins. cbn [read_all]. rewrite h2, hi. cbn. rewrite h1, hc. reflexivity.
Qed.
Print Assumptions equal_assignment_refuted.
Example equal_assignment_case :
  fst (run (demo true) [GetItem "a"; SetItem "a" (VBool true); GetItem "a"; SetItem "k" (VStr "a"); GetItem "k"] (fresh [("a", VInt 1); ("k", VInt 0)] [])) =
    [Ok (VInt 1); Ok VNone; Ok (VInt 1); Ok VNone; Ok (VInt 100)] /\
  Value (demo true) [] [("a", VBool true)] "a" (Ok (VBool true)).
Proof.
  split; [vm_compute; reflexivity|]. apply (value_eval (demo true) [] _ "a" (VBool true) []); [reflexivity|apply inputs_nil].
Qed.

Lemma touch_err c f : forall item t e, touch c f item t = Err e -> e = RecursionError.
Proof.
  induction f as [|f IH]; intros item t e h; [injection h as <-; reflexivity|]. rewrite touch_S in h.
  assert (loop : forall l r, (forall x, r = Err x -> x = RecursionError) -> forall x,
    fold_left (fun r de => do t' <- r; if mem item (snd de) then touch c f (fst de) t' else Ok t') l r = Err x -> x = RecursionError).
  { induction l as [|[d s] l IHl]; intros r hr x hx; [apply hr; exact hx|]. cbn [fold_left] in hx. eapply IHl; [|exact hx].
    intros y. destruct r as [t1|e1]; cbn [rbind fst snd].
    - destruct (mem item s); [apply IH|discriminate].
    - intros q. apply hr. exact q. }
  eapply loop; [|exact h]. intros x hx. eapply loop; [|exact hx]. discriminate.
Qed.

(** with a cycle among the dependents, the assignment of a changed value always exhausts the stack *)
Theorem assign_cycle_fails : forall c s k v orig k' d deps,
  ic_declared c k = true -> ~ In k (ic_readonly c) -> dget k (i_data s) = Some orig -> ic_prim c k = false \/ ~ PyEq v orig ->
  Dependent c k k' -> In (d, deps) (ic_deps c) -> In k' deps -> Dependent c d k' ->
  step c (SetItem k v) s = (Err RecursionError, s).
Proof.
  intros c s k v orig k' d deps hd hr ho hv h1 i j h2. cbn [step]. unfold set_item. rewrite hd, (proj2 (mem_not_In _ _ _) hr).
  unfold set_data. rewrite ho.
  assert (b : ic_prim c k && val_eq v orig = false).
  { destruct hv as [->|n]; [reflexivity|]. apply val_eq_false in n. rewrite n. apply andb_false_r. }
  rewrite b. destruct (touch c (ic_limit c) k (i_val s, i_inp s)) as [t|e] eqn:et.
  - destruct (cycle_chain c k' d deps i j h2 (ic_limit c)) as (m & hm & hc).
    destruct (Dependent_chain c k k' h1 m hc) as (m' & hm' & hc'). apply (touch_chain c m' k hc') in et. lia.
  - apply touch_err in et. subst e. reflexivity.
Qed.
Print Assumptions assign_cycle_fails.
Definition cyclic_class : icls := {|
  ic_deps := [("b", ["a"]); ("c", ["b"]); ("b2", ["c"]); ("b", ["c"])]; ic_prim := fun _ => true; ic_declared := fun _ => true; ic_additional := false;
  ic_required := []; ic_readonly := []; ic_translated := []; ic_lazy := true; ic_limit := 6;
  ic_expr := fun _ => false; ic_ins := fun _ _ => []; ic_getter := fun _ => None; ic_eval := fun _ _ raw _ => Ok raw |}.
Example assign_cycle_case : Dependent cyclic_class "a" "b" /\ Dependent cyclic_class "c" "b" /\
  fst (step cyclic_class (SetItem "a" (VInt 2)) (fresh [("a", VInt 1)] [])) = Err RecursionError.
Proof.
  split; [|split].
  - eapply dependent_step; [apply dependent_refl|left; reflexivity|left; reflexivity].
  - eapply dependent_step; [apply dependent_refl|right; right; right; left; reflexivity|left; reflexivity].
  - vm_compute. reflexivity.
Qed.
Example assign_invalidates_case : Dependent (demo true) "part" "total" /\ ~ Dependent (demo true) "part" "a" /\
  (forall k, dget k (i_val (snd (run (demo true) [GetItem "total"; GetItem "a"; SetItem "part" (VInt 3)] (fresh demo_store [])))) =
    dget k [("a", VInt 5); ("k", VInt 20); ("part", VNone); ("total", VNone); ("fixed", VNone)]).
Proof.
  split; [|split].
  - eapply dependent_step; [apply dependent_refl|left; reflexivity|left; reflexivity].
  - intros h. inversion h as [|x d s h' i j e]; subst. destruct i as [i|[]]. discriminate.
  - intros k. vm_compute. reflexivity.
Qed.

(** * C32: read-only properties keep their value *)
Theorem read_only_assignment_refused : forall c s k v,
  ic_declared c k = true -> In k (ic_readonly c) ->
  step c (SetItem k v) s = (Err AttributeError, s) /\ step c (SetAttr k v) s = (Err AttributeError, s).
Proof.
  intros c s k v hd hr. cbn [step]. unfold set_attr, set_item. rewrite hd, (proj2 (mem_In _ _ _) hr). split; reflexivity.
Qed.
Print Assumptions read_only_assignment_refused.

(** after any history without a deletion of it, a read-only property reads as the evaluation of its original value *)
Theorem read_only_kept : forall c heap dom A0 ops A s k,
  Regular c heap dom -> In k (ic_readonly c) -> History c heap dom A0 ops A s -> ~ In (DelAttr k) ops -> ~ In (DelItem k) ops ->
  dget k A = dget k A0 /\ exists r s', step c (GetItem k) s = (r, s') /\ Value c heap A k r.
Proof.
  intros c heap dom A0 ops A s k R hr h. intros n1 n2. split.
  - clear R. induction h as [|ops A s o r s' h IH e adm ha]; [reflexivity|].
    assert (q : dget k A = dget k A0) by (apply IH; intros i; [apply n1|apply n2]; apply in_or_app; left; exact i).
    rewrite <- q. assert (no : o <> DelAttr k /\ o <> DelItem k).
    { split; intros ->; [apply n1|apply n2]; apply in_or_app; right; left; reflexivity. }
    destruct o as [k1|k1 v|k1 v|k1|k1|i v]; cbn [assigned_after]; try reflexivity.
    + destruct (mem_spec EqDec_string k1 (ic_readonly c)) as [i|n]; [reflexivity|]. destruct (dmem k1 A); [|reflexivity].
      apply dget_dset_other. intros ->. contradiction.
    + destruct (mem_spec EqDec_string k1 (ic_readonly c)) as [i|n]; [reflexivity|]. destruct (dmem k1 A); [|reflexivity].
      apply dget_dset_other. intros ->. contradiction.
    + destruct (mem k1 (ic_required c)); [reflexivity|]. rewrite dget_ddel. destruct (eq_dec k k1) as [->|]; [|reflexivity].
      destruct no as [no _]. contradiction no. reflexivity.
    + destruct (mem k1 (ic_translated c) && mem k1 (ic_required c)); [reflexivity|]. rewrite dget_ddel.
      destruct (eq_dec k k1) as [->|]; [|reflexivity]. destruct no as [_ no]. contradiction no. reflexivity.
  - destruct (read_coherent c heap dom A0 ops A s k R h) as (r & s' & e & v & _). eauto.
Qed.
Print Assumptions read_only_kept.
Example read_only_case : exists A s, History (demo true) [] demo_kind demo_store [SetItem "fixed" (VInt 2); SetItem "a" (VInt 3)] A s /\
  fst (step (demo true) (GetItem "fixed") s) = Ok (VInt 1) /\ fst (step (demo true) (SetItem "fixed" (VInt 2)) s) = Err AttributeError.
Proof.
  do 2 eexists. split.
  - eapply (history_snoc _ _ _ _ [SetItem "fixed" (VInt 2)] _ _ (SetItem "a" (VInt 3)));
      [eapply (history_snoc _ _ _ _ [] _ _ (SetItem "fixed" (VInt 2))); [apply history_new; [acyclic|kinds]|left; reflexivity|acyclic|kinds]
      |left; reflexivity|acyclic|kinds].
  - split; vm_compute; reflexivity.
Qed.
(** but it can be deleted *)
Theorem read_only_delete_refuted : exists c A k, In k (ic_readonly c) /\ Regular c [] demo_kind /\
  fst (run c [DelAttr k; GetItem k] (fresh A [])) = [Ok VNone; Err KeyError] /\
  fst (run c [DelItem k; GetItem k] (fresh A [])) = [Ok VNone; Err KeyError].
Proof.
  exists (demo true), demo_store, "fixed". split; [left; reflexivity|]. split; [apply demo_regular; constructor|]. split; vm_compute; reflexivity.
Qed.
Print Assumptions read_only_delete_refuted.

(** * C33: required properties cannot be deleted by attribute *)
Theorem required_delete_refused : forall c s k, In k (ic_required c) -> step c (DelAttr k) s = (Err AttributeError, s).
Proof. intros c s k h. cbn [step]. unfold del_attr. rewrite (proj2 (mem_In _ _ _) h). destruct (ic_declared c k); reflexivity. Qed.
Print Assumptions required_delete_refused.
(** it is still there after any operations, in any state, other than its deletion by item *)
Definition has (k : string) (s : ist) : Prop := dmem k (i_data s) = true.
Lemma has_dset k k' v (d : dict string pyval) : dmem k d = true -> dmem k (dset k' v d) = true.
Proof. unfold dmem. rewrite dget_dset. destruct (eq_dec k k'); auto. Qed.
Lemma has_set_data c k k' v s s' : set_data c k' v s = Ok s' -> has k s -> has k s'.
Proof.
  unfold set_data, has. destruct (dget k' (i_data s)); [|discriminate]. destruct (_ && _).
  - injection 1 as <-. apply has_dset.
  - destruct (touch _ _ _ _); [|discriminate]. injection 1 as <-. apply has_dset.
Qed.
Lemma has_validated c k k' v s : has k s -> has k (set_validated c k' v s).
Proof. unfold has, set_validated. cbn [i_data]. destruct (_ && _); [auto|apply has_dset]. Qed.
Lemma has_inputs c k rd k' s : (forall x s, has k s -> has k (snd (rd x s))) -> has k s -> has k (snd (inputs_with c rd k' s)).
Proof.
  intros h.
  assert (ra : forall ks e s, has k s -> has k (snd (read_all rd ks e s))).
  { induction ks as [|x ks IH]; intros e s0 hs; [exact hs|]. cbn [read_all]. specialize (h x s0 hs). destruct (rd x s0) as [r s1]. apply IH. exact h. }
  intros hs. unfold inputs_with. specialize (ra (deps_of c k') [] s hs) as h1. destruct (read_all rd (deps_of c k') [] s) as [e1 s1].
  destruct (ic_prim c k'); [|exact h1]. destruct (dget k' (i_data s1)); [apply ra; exact h1|exact h1].
Qed.
Lemma has_get c k f : forall k' s, has k s -> has k (snd (get_item c f k' s)).
Proof.
  induction f as [|f IH]; intros k' s hs; [exact hs|]. cbn [get_item].
  destruct (dget k' (i_data s)) as [raw|]; [|exact hs]. destruct (dget k' (i_val s)) as [cv|]; [|exact hs].
  assert (out : has k (snd (is_outdated c (get_item c f) k' raw cv s))).
  { unfold is_outdated. destruct (_ && _); [exact hs|]. pose proof (has_inputs c k (get_item c f) k' s IH hs) as h.
    destruct (inputs_with c (get_item c f) k' s). exact h. }
  destruct (ic_declared c k').
  - destruct (is_outdated c (get_item c f) k' raw cv s) as [st s1]. cbn [snd] in out.
    destruct (match ic_getter c k' with Some _ => _ | None => st end); [|exact out].
    pose proof (has_inputs c k (get_item c f) k' s1 IH out) as h2. destruct (inputs_with c (get_item c f) k' s1) as [cur s2]. cbn [snd] in h2.
    destruct (match ic_getter c k' with Some g => _ | None => _ end) as [s3|x] eqn:e3; [|exact h2].
    assert (h3 : has k s3).
    { destruct (ic_getter c k'); [eapply has_set_data; eassumption|]. injection e3 as <-. exact h2. }
    destruct (evaluate c k' cur s3); [|exact h3]. apply (has_validated c k k' a s3 h3).
  - assert (out' : has k (snd (if ic_lazy c then (true, s) else is_outdated c (get_item c f) k' raw cv s))) by (destruct (ic_lazy c); assumption).
    destruct (if ic_lazy c then (true, s) else is_outdated c (get_item c f) k' raw cv s) as [st s1]. cbn [snd] in out'.
    destruct st; [|exact out'].
    pose proof (has_inputs c k (get_item c f) k' s1 IH out') as h2. destruct (inputs_with c (get_item c f) k' s1) as [cur s2]. cbn [snd] in h2.
    destruct (evaluate c k' cur (set_inputs k' cur s2)); [|exact h2]. apply (has_validated c k k' a (set_inputs k' cur s2)). exact h2.
Qed.
Lemma has_set c k k' v s : has k s -> has k (snd (set_item c k' v s)).
Proof.
  intros hs. unfold set_item. destruct (ic_declared c k').
  - destruct (mem k' (ic_readonly c)); [exact hs|]. destruct (set_data c k' v s) as [s1|x] eqn:e; [|exact hs].
    assert (h1 : has k s1) by (eapply has_set_data; eassumption). destruct (ic_lazy c); [exact h1|].
    pose proof (has_inputs c k (read c) k' s1 (has_get c k (ic_limit c)) h1) as h2. destruct (inputs_with c (read c) k' s1) as [cur s2]. cbn [snd] in h2.
    destruct (evaluate c k' cur (set_inputs k' cur s2)); [|exact h2]. apply (has_validated c k k' a (set_inputs k' cur s2)). exact h2.
  - destruct (ic_additional c); [|exact hs]. apply has_dset. exact hs.
Qed.
Theorem required_survives : forall c ops s k, In k (ic_required c) ->
  (In (DelItem k) ops -> In k (ic_translated c)) -> dmem k (i_data s) = true -> dmem k (i_data (snd (run c ops s))) = true.
Proof.
  intros c ops. induction ops as [|o ops IH]; intros s k hq ho hs; [exact hs|]. cbn [run].
  assert (h1 : has k (snd (step c o s))).
  { assert (hf : forall k', k' <> k -> has k (forget k' s)).
    { intros k' n. unfold has, dmem, forget. cbn [i_data]. rewrite dget_ddel. destruct (eq_dec k k'); [congruence|exact hs]. }
    assert (hda : forall k', has k (snd (del_attr c k' s))).
    { intros k'. unfold del_attr. destruct (ic_declared c k'); [|exact hs].
      destruct (mem_spec EqDec_string k' (ic_required c)) as [i|n]; [exact hs|]. destruct (dmem k' (i_data s)); [|exact hs].
      apply hf. intros ->. contradiction. }
    destruct o as [k1|k1 v|k1 v|k1|k1|i v]; cbn [step].
    - apply has_get. exact hs.
    - apply has_set. exact hs.
    - unfold set_attr. pose proof (has_set c k k1 v s hs) as h. destruct (set_item c k1 v s) as [[|[]] s1]; exact h.
    - apply hda.
    - unfold del_item. destruct (mem_spec EqDec_string k1 (ic_translated c)) as [i|n]; [apply hda|].
      assert (k1 <> k) by (intros ->; apply n, ho; left; reflexivity).
      destruct (dmem k1 (i_data s)); [|exact hs]. destruct (dmem k1 (i_inp s)); [apply hf; assumption|].
      unfold has, dmem. cbn [snd with_data i_data]. rewrite dget_ddel. destruct (eq_dec k k1); [congruence|exact hs].
    - exact hs. }
  destruct (step c o s) as [r s1]. cbn [snd] in h1.
  specialize (IH s1 k hq (fun i => ho (or_intror i)) h1). destruct (run c ops s1) as [rs s2]. exact IH.
Qed.
Print Assumptions required_survives.

(** a deleted optional property cannot be read, is no longer listed (object_protocol.py:253-257: the length and the names are those of
    the cached values), and surprisingly cannot be assigned either *)
Theorem optional_delete : forall c s k, ic_declared c k = true -> ~ In k (ic_required c) -> dmem k (i_data s) = true -> 0 < ic_limit c ->
  exists s', step c (DelAttr k) s = (Ok VNone, s') /\ step c (GetItem k) s' = (Err KeyError, s') /\
    (forall v, ~ In k (ic_readonly c) -> step c (SetItem k v) s' = (Err KeyError, s') /\ step c (SetAttr k v) s' = (Err AttributeError, s')) /\
    (forall k', k' <> k -> dget k' (i_data s') = dget k' (i_data s) /\ dget k' (i_val s') = dget k' (i_val s)) /\
    ~ In k (dkeys (i_data s')) /\ ~ In k (dkeys (i_val s')) /\ ~ In k (dkeys (i_inp s')).
Proof.
  intros c s k hd hr hm hl. exists (forget k s). cbn [step].
  assert (q : dget k (i_data (forget k s)) = None).
  { cbn [forget i_data]. rewrite dget_ddel. destruct (eq_dec k k); [reflexivity|contradiction]. }
  split; [|split; [|split; [|split]]].
  - unfold del_attr. rewrite hd, (proj2 (mem_not_In _ _ _) hr), hm. reflexivity.
  - unfold read. destruct (ic_limit c); [lia|]. cbn [get_item]. rewrite q. reflexivity.
  - intros v n. unfold set_attr, set_item, set_data. rewrite hd, (proj2 (mem_not_In _ _ _) n), q. split; reflexivity.
  - intros k' n. cbn [forget i_data i_val]. rewrite !dget_ddel. destruct (eq_dec k' k); [contradiction|]. split; reflexivity.
  - cbn [forget i_data i_val i_inp]. rewrite <- !dget_None, !dget_ddel. destruct (eq_dec k k); [auto|contradiction].
Qed.
Print Assumptions optional_delete.
Example optional_delete_case :
  fst (run (demo true) [DelAttr "a"; DelAttr "k"; GetItem "k"; SetAttr "k" (VInt 1); GetItem "a"] (fresh demo_store [])) =
  [Err AttributeError; Ok VNone; Err KeyError; Err AttributeError; Ok (VInt 5)].
Proof. vm_compute. reflexivity. Qed.
(** [del obj[key]] does not look at the required properties *)
Theorem required_item_delete_refuted : exists c A k, In k (ic_required c) /\ Regular c [] demo_kind /\
  fst (run c [DelItem k; GetItem k] (fresh A [])) = [Ok VNone; Err KeyError].
Proof. exists (demo true), demo_store, "a". split; [left; reflexivity|]. split; [apply demo_regular; constructor|]. vm_compute. reflexivity. Qed.
Print Assumptions required_item_delete_refuted.
(** deleting an additional property that was never read raises after removing its data: it stays listed *)
Theorem additional_delete_refuted : exists c A k, 
  let p := run c [SetItem k (VInt 1); DelItem k; GetItem k] (fresh A []) in
  fst p = [Ok VNone; Err KeyError; Err KeyError] /\ dmem k (i_val (snd p)) = true.
Proof. exists extra_class, [("a", VInt 5)], "x". split; vm_compute; reflexivity. Qed.
Print Assumptions additional_delete_refuted.

(** changing a mutable value in place changes its content only *)
Theorem mutate_changes : forall c n v s, n < length (i_heap s) ->
  let s' := snd (step c (Mutate n v) s) in
  (forall m, nth_error (i_heap s') m = if Nat.eqb m n then Some v else nth_error (i_heap s) m) /\
  i_data s' = i_data s /\ i_val s' = i_val s /\ i_inp s' = i_inp s.
Proof.
  intros c n v s h. cbn. split; [|repeat split]. revert n h. induction (i_heap s) as [|x l IH]; intros n h m; [cbn in h; lia|].
  destruct n as [|n]; [destruct m; reflexivity|]. destruct m as [|m]; [reflexivity|]. cbn [set_nth nth_error Nat.eqb]. apply IH. cbn [length] in h. lia.
Qed.
Print Assumptions mutate_changes.
