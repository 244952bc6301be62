(** C78: the type of a value by name. C79: schemas given with types in them. *)
From Verif Require Import Base PyVal Tn_Model Tn_Spec.
Local Open Scope string_scope.
Local Open Scope list_scope.

(** * C78 *)
(** A known name accepts exactly the values it stands for, whatever other types are registered; a name never registered raises. *)
Theorem is_type_known : forall others v n, In n known -> exists b, is_type (library others) v n = Ok b /\ (b = true <-> Named n v).
Proof.
  intros others v n i. cbn in i.
  repeat (destruct i as [<-|i]; [eexists; split; [reflexivity|]; split;
    [destruct v as [|[|]| | | | | |]; cbn; intros E; try discriminate E; constructor; solve [exact I|exact E|reflexivity]
    |intros N; inversion N; subst; cbn; try reflexivity; destruct v; cbn in *; solve [contradiction|assumption|reflexivity]]|]).
  destruct i.
Qed.
Print Assumptions is_type_known.
Theorem is_type_unknown : forall r v n, (forall t, ~ In (n, t) r) -> is_type r v n = Err (UserError 1) /\ get_type r n = Err KeyError.
Proof.
  intros r v n h. unfold is_type, get_type. destruct (dget n r) as [t|] eqn:e; [destruct (h t (dget_In _ _ _ e))|]. split; reflexivity.
Qed.
Print Assumptions is_type_unknown.
(** registering a type changes what its name means and nothing else *)
Theorem register_type_only : forall r n t v m, 
  is_type (register_type n t r) v n = Ok (t v) /\ (m <> n -> is_type (register_type n t r) v m = is_type r v m).
Proof.
  intros r n t v m. unfold is_type, register_type. split; [rewrite dget_dset_same; reflexivity|]. intros ne. rewrite dget_dset_other by exact ne. reflexivity.
Qed.
Print Assumptions register_type_only.

(** The type detected for a value is the first one registered that accepts it. *)
Theorem detect_first : forall r v n t, detect_type r v = Some (n, t) <->
  exists l1 l2, r = l1 ++ (n, t) :: l2 /\ t v = true /\ forall m u, In (m, u) l1 -> u v = false.
Proof.
  intros r v n t. unfold detect_type. split.
  - induction r as [|[m u] r IH]; [discriminate|]. cbn [find snd]. destruct (u v) eqn:e.
    + intros [= -> ->]. exists [], r. split; [reflexivity|]. split; [exact e|]. intros m' u' [].
    + intros h. destruct (IH h) as (l1 & l2 & -> & et & hn). exists ((m, u) :: l1), l2. split; [reflexivity|]. split; [exact et|].
      intros m' u' [[= <- <-]|i]; [exact e|exact (hn _ _ i)].
  - intros (l1 & l2 & -> & et & hn). induction l1 as [|[m u] l1 IH]; cbn [app find snd].
    + rewrite et. reflexivity.
    + rewrite (hn m u (or_introl eq_refl)). apply IH. intros m' u' i. exact (hn m' u' (or_intror i)).
Qed.
Print Assumptions detect_first.

(** FINDING: the type named "true" accepts every value and is registered before all others but "null", which accepts none: every value
    is detected as "true", whatever types are registered besides. *)
Theorem detect_refuted : forall others more v, (forall n t, In (n, t) more -> ~ In n known) ->
  exists t, detect_type (fold_left (fun r nt => register_type (fst nt) (snd nt) r) more (library others)) v = Some ("true", t).
Proof.
  intros others more v h. exists (check_constant (Some true)).
  assert (E : exists rest, fold_left (fun r nt => register_type (fst nt) (snd nt) r) more (library others) =
                           ("null", check_constant None) :: ("true", check_constant (Some true)) :: rest).
  { unfold library, register_type. cbn [app]. 
    generalize (("false", check_constant (Some false)) :: ("enum", check_enum) :: ("boolean", is_bool) :: ("number", is_int) :: ("integer", is_int) :: ("string", is_str)
       :: ("array", check_array false) :: ("tuple", check_array false) :: ("set", check_array true) :: ("object", check_object) :: others).
    induction more as [|[n t] more IH]; intros rest; [eexists; reflexivity|]. cbn [fold_left fst snd].
    assert (nk := h n t (or_introl eq_refl)).
    cbn [dset]. destruct (eq_dec n "null") as [->|]; [destruct nk; left; reflexivity|]. destruct (eq_dec n "true") as [->|]; [destruct nk; right; left; reflexivity|].
    apply IH. intros m u i. exact (h m u (or_intror i)). }
  destruct E as (rest & ->). reflexivity.
Qed.
Print Assumptions detect_refuted.
(** FINDING: None is not of the type "null", and no set is of the type "set" while lists are. *)
Theorem null_refuted : forall others, is_type (library others) VNone "null" = Ok false.
Proof. reflexivity. Qed.
Print Assumptions null_refuted.

Example is_type_ex : map (fun n => is_type (library []) (VBool true) n) ["boolean"; "integer"; "object"; "float"] = [Ok true; Ok true; Ok false; Err (UserError 1)].
Proof. reflexivity. Qed.
Example detect_ex : forall t, In ("colour", t) [("colour", is_str)] -> ~ In "colour" known.
Proof. intros t _ [h|h]; [discriminate|]. cbn in h. intuition discriminate. Qed.

(** * C79 *)
Lemma untype_map m : untype_value (JMap m) = JMap (map (fun kx => (fst kx, untype_value (snd kx))) m).
Proof. cbn [untype_value]. f_equal. induction m as [|[k x] m IH]; [reflexivity|]. cbn [map fst snd]. f_equal. exact IH. Qed.

Fixpoint js_ind' (P : js -> Prop) (f1 : forall v, P (JVal v)) (f2 : forall l, P (JList l)) (f3 : forall m, (forall k x, In (k, x) m -> P x) -> P (JMap m))
  (f4 : forall n id s, P s -> P (JType n id s)) (s : js) {struct s} : P s.
Proof.
  destruct s as [v|l|m|n id s].
  - apply f1.
  - apply f2.
  - apply f3. revert m. fix go 1. intros [|[k' x'] m] k x; [intros []|]. intros [[= _ <-]|i]; [exact (js_ind' P f1 f2 f3 f4 x')|exact (go m k x i)].
  - apply f4. apply js_ind'; assumption.
Defined.

(** Everything in a schema that is no type stays where it is; in the place of a type comes the reference to it, when it has an
    identifier, or its schema. *)
Theorem untype_keeps : forall s r p v, untype_schema s = Ok r -> At s p v ->
  match v with
  | JType _ (Some i) _ => At r p (JMap [("$ref", JVal (VStr i))])
  | JType _ None x => At r p x
  | JMap m => exists m', At r p (JMap m') /\ map fst m' = map fst m
  | _ => At r p v
  end.
Proof.
  intros s r p v h A. assert (e : r = untype_value s) by (destruct s; try discriminate; injection h as <-; reflexivity). subst r. clear h.
  induction A as [v|m k x p v i A IH].
  - destruct v as [v|l|m|n [id|] x]; try apply At_here.
    rewrite untype_map. eexists. split; [apply At_here|]. rewrite map_map. reflexivity.
  - rewrite untype_map.
    assert (i' : In (k, untype_value x) (map (fun kx => (fst kx, untype_value (snd kx))) m)) by (apply in_map_iff; exists (k, x); auto).
    destruct v as [v|l|m0|n [id|] y]; try (eapply At_key; eassumption).
    destruct IH as (m' & A' & e). exists m'. split; [eapply At_key; eassumption|exact e].
Qed.
Print Assumptions untype_keeps.
(** There is nothing else in the result. *)
Theorem untype_adds_nothing : forall s r p w, untype_schema s = Ok r -> At r p w ->
  (exists v, At s p v /\ (forall n id x, v <> JType n id x) /\ (v = w \/ exists m m', v = JMap m /\ w = JMap m' /\ map fst m' = map fst m)) \/
  (exists p1 p2 n id x, p = p1 ++ p2 /\ At s p1 (JType n id x) /\
     At (match id with Some i => JMap [("$ref", JVal (VStr i))] | None => x end) p2 w).
Proof.
  intros s r p w h. assert (e : r = untype_value s) by (destruct s; try discriminate; injection h as <-; reflexivity). subst r. clear h.
  revert p w. induction s as [v|l|m IH|n id x IH] using js_ind'; intros p w A.
  - left. exists (JVal v). cbn in A. inversion A; subst. split; [apply At_here|]. split; [discriminate|left; reflexivity].
  - left. exists (JList l). cbn in A. inversion A; subst. split; [apply At_here|]. split; [discriminate|left; reflexivity].
  - rewrite untype_map in A. inversion A as [v ev|m0 k y p' v i A' em]; subst.
    + left. exists (JMap m). split; [apply At_here|]. split; [discriminate|]. right. do 2 eexists. split; [reflexivity|]. split; [reflexivity|].
      rewrite map_map. reflexivity.
    + apply in_map_iff in i. destruct i as ([k' x] & [= <- <-] & i). destruct (IH _ _ i _ _ A') as [(v & Av & Hv)|(p1 & p2 & n & id & z & -> & Az & B)].
      * left. exists v. split; [eapply At_key; eassumption|exact Hv].
      * right. exists (k' :: p1), p2, n, id, z. split; [reflexivity|]. split; [eapply At_key; eassumption|exact B].
  - right. exists [], p, n, id, x. split; [reflexivity|]. split; [apply At_here|]. exact A.
Qed.
Print Assumptions untype_adds_nothing.

(** A schema without types is left as it is; the result has none where the types' own schemas have none; doing it again changes
    nothing. *)
Lemma untype_free s : TypeFree s -> untype_value s = s.
Proof.
  induction s as [v|l|m IH|n id x IH] using js_ind'; intros h; try reflexivity.
  - rewrite untype_map. f_equal. assert (E : forall k x, In (k, x) m -> untype_value x = x).
    { intros k x i. apply (IH k x i). intros p n id y A. apply (h (k :: p) n id y). eapply At_key; eassumption. }
    clear IH h. induction m as [|[k x] m IH]; [reflexivity|]. cbn [map fst snd]. rewrite (E k x (or_introl eq_refl)). f_equal. apply IH.
    intros k' x' i. exact (E k' x' (or_intror i)).
  - destruct (h [] n id x). apply At_here.
Qed.
Theorem untype_plain : forall m, TypeFree (JMap m) -> untype_schema (JMap m) = Ok (JMap m).
Proof. intros m h. cbn [untype_schema]. rewrite untype_free by exact h. reflexivity. Qed.
Print Assumptions untype_plain.
Theorem untype_no_types : forall s r, (forall p n x, At s p (JType n None x) -> TypeFree x) -> untype_schema s = Ok r ->
  TypeFree r /\ untype_schema r = Ok r.
Proof.
  intros s r h e.
  assert (F : TypeFree r).
  { intros p n id x A. destruct (untype_adds_nothing s r p _ e A) as [(v & _ & nt & [->|(m & m' & _ & ew & _)])|(p1 & p2 & n' & [i|] & y & _ & As & B)].
    - exact (nt _ _ _ eq_refl).
    - discriminate.
    - inversion B as [|m k z q v i0 B']; subst. destruct i0 as [[= <- <-]|[]]. inversion B'.
    - exact (h _ _ _ As _ _ _ _ B). }
  split; [exact F|]. destruct s as [| |m|]; try discriminate. cbn [untype_schema] in e. rewrite untype_map in e. injection e as <-. apply untype_plain. exact F.
Qed.
Print Assumptions untype_no_types.

(** What is no mapping is refused. *)
Theorem untype_not_mapping : forall s, (forall m, s <> JMap m) -> untype_schema s = Err TypeError.
Proof. intros [v|l|m|n id x] h; try reflexivity. destruct (h m eq_refl). Qed.
Print Assumptions untype_not_mapping.

(** FINDING: types within lists stay: a schema {"anyOf": [<type>]} is not made plain. *)
Theorem listed_types_refuted : forall n id x k l, In (JType n id x) l -> untype_schema (JMap [(k, JList l)]) = Ok (JMap [(k, JList l)]).
Proof. reflexivity. Qed.
Print Assumptions listed_types_refuted.
(** FINDING: an instance of a class of objects is taken for a type: given as the default of a property, it becomes a reference to its
    class, and its content is lost. *)
Theorem instance_default_refuted : exists s1 s2 r, s1 <> s2 /\ untype_schema s1 = Ok r /\ untype_schema s2 = Ok r.
Proof.
  exists (JMap [("default", JType 1 (Some "doc#/person") (JMap []))]), (JMap [("default", JType 2 (Some "doc#/person") (JMap []))]).
  eexists. split; [discriminate|]. split; reflexivity.
Qed.
Print Assumptions instance_default_refuted.

Definition mixed : js := JMap [("type", JVal (VStr "object")); ("properties", JMap [("a", JType 1 None (JMap [("type", JVal (VStr "string"))])); ("b", JType 2 (Some "doc#/b") (JMap []))])].
Example mixed_untyped : untype_schema mixed = Ok (JMap [("type", JVal (VStr "object")); ("properties",
  JMap [("a", JMap [("type", JVal (VStr "string"))]); ("b", JMap [("$ref", JVal (VStr "doc#/b"))])])]).
Proof. reflexivity. Qed.
Example mixed_at : At mixed ["properties"; "a"] (JType 1 None (JMap [("type", JVal (VStr "string"))])).
Proof. eapply At_key; [right; left; reflexivity|]. eapply At_key; [left; reflexivity|]. apply At_here. Qed.
