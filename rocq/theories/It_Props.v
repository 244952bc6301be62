(** C77: the type of an item of an object is the one its class declares, whatever was asked before. *)
From Verif Require Import Base It_Model It_Spec It_Proofs.
Local Open Scope string_scope.
Local Open Scope list_scope.

Lemma regular_reg c h : Sound c -> Regular h -> RegOk (snd (after c h)).
Proof. intros s r u p e. apply (after_ok c s h r) in e. exact (proj2 r u p e). Qed.

(** After any lookups and constructions of types, the type of an item is the one its class declares for the name meant: the type
    itself or, for a stand-in, the type built meanwhile. *)
Theorem item_type_declared : forall c h k i d, Sound c -> Regular h -> Target c k i -> Declared c i d ->
  (forall a, ~ In (a, k) (oc_negated c)) \/ ty_stand d = None ->
  forall t, answer c h k = Ok t <-> Stands h d t.
Proof.
  intros c h k i d S r T D nt t. destruct (after_ok c S h r) as [Hr Hc].
  apply tgt_spec in T; [|apply S]. apply decl_spec in D; [|apply S]. subst i.
  destruct (item_type_spec c S _ _ k (regular_reg c h S r) Hc) as [_ A]. rewrite D in A. fold (answer c h k) in A.
  destruct A as (x & -> & A).
  assert (F : forall y, Stands h d y <-> y = x).
  { intros y. destruct A as [[-> [e|[[a ia]|(u & eu & er)]]]|(u & eu & er)].
    - split; [|intros ->; apply St_itself; exact e]. intros H. inversion H; subst; congruence.
    - destruct nt as [nt|e]; [destruct (nt a ia)|]. split; [|intros ->; apply St_itself; exact e]. intros H. inversion H; subst; congruence.
    - assert (nr : forall p, ~ In (Register u p) h) by (intros p ip; apply Hr in ip; congruence). split.
      + intros H. inversion H as [? e|? v ev|? v p ev ip]; subst; [reflexivity|reflexivity|]. rewrite eu in ev. injection ev as <-. destruct (nr _ ip).
      + intros ->. eapply St_waits; eassumption.
    - apply Hr in er. split.
      + intros H. inversion H as [? e|? v ev nv|? v p ev ip]; subst; [congruence| |].
        * rewrite eu in ev. injection ev as <-. destruct (nv _ er).
        * rewrite eu in ev. injection ev as <-. exact (proj1 r u _ _ ip er).
      + intros ->. eapply St_built; eassumption. }
  rewrite F. split; [injection 1 as ->; reflexivity|intros ->; reflexivity].
Qed.
Print Assumptions item_type_declared.

(** An item of which the class knows nothing raises KeyError, and only such an item raises. *)
Theorem item_type_unknown : forall c h k i, Sound c -> Regular h -> Target c k i ->
  forall e, answer c h k = Err e <-> e = KeyError /\ forall d, ~ Declared c i d.
Proof.
  intros c h k i S r T e. destruct (after_ok c S h r) as [_ Hc].
  apply tgt_spec in T; [|apply S]. subst i.
  destruct (item_type_spec c S _ _ k (regular_reg c h S r) Hc) as [_ A]. fold (answer c h k) in A.
  assert (N : (forall d, ~ Declared c (tgt c k) d) <-> decl c (tgt c k) = None).
  { split; [intros n; destruct (decl c (tgt c k)) eqn:ed; [|reflexivity]; destruct (n t); apply decl_spec; [apply S|exact ed]|].
    intros en d D. apply decl_spec in D; [|apply S]. congruence. }
  rewrite N. destruct (decl c (tgt c k)) as [d|].
  - destruct A as (t & -> & _). split; [discriminate|intros [_ x]; discriminate].
  - rewrite A. split; [injection 1 as <-; auto|intros [-> _]; reflexivity].
Qed.
Print Assumptions item_type_unknown.

(** A property comes before a pattern and a pattern before the additional properties: adding patterns or changing the type of
    additional properties changes nothing for a declared property. *)
Theorem property_first : forall c h k d ps a, Sound c -> Regular h -> In (k, d) (oc_props c) -> ty_stand d = None ->
  (forall i, ~ In (k, i) (oc_negated c)) ->
  let c' := {| oc_props := oc_props c; oc_patterns := ps; oc_additional := a; oc_aliases := oc_aliases c; oc_negated := oc_negated c |} in
  Sound c' -> answer c' h k = Ok d.
Proof.
  intros c h k d ps a S r ik e nn c' S'. apply (item_type_declared c' h k k d S' r); [apply T_itself; exact nn|apply D_property; exact ik|right; exact e|].
  apply St_itself. exact e.
Qed.
Print Assumptions property_first.

(** FINDING: a plain alias does not get the type of its property: the class looks for a property with the name of the alias, and
    takes the type of additional properties, or raises KeyError when none are allowed. *)
Theorem alias_type_refuted : forall c h a k d, Sound c -> Regular h -> In (a, k) (oc_aliases c) -> In (k, d) (oc_props c) ->
  (forall x, ~ In (a, x) (oc_props c)) -> (forall i, ~ In (a, i) (oc_negated c)) -> (forall b, ~ In (b, a) (oc_negated c)) ->
  (forall f x, In (f, x) (oc_patterns c) -> f a = false) -> ty_stand (oc_additional c) = None ->
  answer c h a = if ty_truth (oc_additional c) then Ok (oc_additional c) else Err KeyError.
Proof.
  intros c h a k d S r _ _ np nn nt nf ns. destruct (ty_truth (oc_additional c)) eqn:et.
  - apply (item_type_declared c h a a (oc_additional c) S r); [apply T_itself; exact nn|apply D_additional; assumption|right; exact ns|apply St_itself; exact ns].
  - apply (item_type_unknown c h a a S r); [apply T_itself; exact nn|]. split; [reflexivity|]. intros x D. inversion D as [? i|l1 f ? l2 _ el ef|]; subst.
    + exact (np _ i).
    + rewrite (nf f x) in ef; [discriminate|]. rewrite el. apply in_app_iff. right. left. reflexivity.
    + congruence.
Qed.
Print Assumptions alias_type_refuted.

(** Calls on a stand-in: those of the type, once it is built; before, nothing is checked and every converted value is None. *)
Theorem proxy_calls : forall reg u f,
  (forall p, dget u reg = Some p -> ty_truth p = true -> proxy_call reg u f = f p) /\
  (dget u reg = None -> proxy_call reg u f = Ok VNone).
Proof. intros reg u f. unfold proxy_call. split; [intros p -> ->|intros ->]; reflexivity. Qed.
Print Assumptions proxy_calls.

(** * A concrete class: a node with a label, a next node, a pattern and a negated alias *)
Definition text := {| ty_n := 1; ty_truth := true; ty_stand := None |}.
Definition anything := {| ty_n := 2; ty_truth := true; ty_stand := None |}.
Definition nothing := {| ty_n := 3; ty_truth := false; ty_stand := None |}.
Definition standin := {| ty_n := 4; ty_truth := true; ty_stand := Some "node" |}.
Definition nodety := {| ty_n := 5; ty_truth := true; ty_stand := None |}.
Definition nodety2 := {| ty_n := 6; ty_truth := true; ty_stand := None |}.
Definition extended := {| ty_n := 7; ty_truth := true; ty_stand := Some "node" |}.
Definition starts_x (s : string) : bool := match s with String c _ => Ascii.eqb c "x"%char | EmptyString => false end.
Definition nodes (add : ty) : ocls := {| oc_props := [("label", text); ("next", standin); ("none", nothing)]; oc_patterns := [(starts_x, anything)];
  oc_additional := add; oc_aliases := [("title", "label")]; oc_negated := [("unnamed", "label")] |}.

Lemma nodes_decl add k d : ty_stand add = None -> Declared (nodes add) k d -> ty_stand d <> None -> ty_truth d = true.
Proof.
  intros ea D n. inversion D as [? i|l1 f ? l2 _ el ef|]; subst.
  - cbn in i. destruct i as [[= <- <-]|[[= <- <-]|[[= <- <-]|[]]]]; try reflexivity. cbn in n. congruence.
  - assert (i : In (f, d) (oc_patterns (nodes add))) by (rewrite el; apply in_app_iff; right; left; reflexivity).
    cbn in i. destruct i as [[= <- <-]|[]]. reflexivity.
  - cbn in n. congruence.
Qed.
Lemma nodes_sound add : ty_stand add = None -> Sound (nodes add).
Proof.
  intros ea. split; [|split; [|split]].
  - repeat constructor; cbn; intuition congruence.
  - repeat constructor; cbn; intuition congruence.
  - intros a b i [[= <- <-]|[]] [[= e _]|[]].
  - intros k d D n. exact (nodes_decl add k d ea D n).
Qed.
Definition hist : list event := [Ask "next"; Ask "unnamed"; Register "node" nodety; Ask "x1"].
Example hist_regular : Regular hist.
Proof.
  split.
  - intros u p q i j. cbn in i, j. destruct i as [i|[i|[i|[i|[]]]]]; try discriminate. destruct j as [j|[j|[j|[j|[]]]]]; try discriminate. congruence.
  - intros u p i. cbn in i. destruct i as [i|[i|[i|[i|[]]]]]; try discriminate. injection i as <- <-. auto.
Qed.
Example hist_answers : map (answer (nodes nothing) hist) ["label"; "next"; "unnamed"; "x2"; "none"; "other"; "title"] =
  [Ok text; Ok nodety; Ok text; Ok anything; Ok nothing; Err KeyError; Err KeyError] /\ answer (nodes nothing) [Ask "next"] "next" = Ok standin.
Proof. split; reflexivity. Qed.
Example hist_alias : answer (nodes anything) hist "title" = Ok anything.
Proof. reflexivity. Qed.
Example nodes_met : Sound (nodes nothing) /\ Target (nodes nothing) "unnamed" "label" /\ Declared (nodes nothing) "label" text.
Proof. split; [apply nodes_sound; reflexivity|split; [apply T_negated; left; reflexivity|apply D_property; left; reflexivity]]. Qed.

(** FINDING: a class keeps the type it found first: after the type is defined again under the same identifier, the items are still
    evaluated with the old one (the registry has the new one). *)
Theorem redefined_type_refuted : exists c h k u old new, Sound c /\
  In (k, {| ty_n := 4; ty_truth := true; ty_stand := Some u |}) (oc_props c) /\
  dget u (snd (after c h)) = Some new /\ old <> new /\ answer c h k = Ok old.
Proof.
  exists (nodes nothing), [Register "node" nodety; Ask "next"; Register "node" nodety2], "next", "node", nodety, nodety2.
  split; [apply nodes_sound; reflexivity|]. split; [right; left; reflexivity|]. split; [reflexivity|]. split; [discriminate|reflexivity].
Qed.
Print Assumptions redefined_type_refuted.

(** FINDING: asking for a negated alias first leaves the stand-in of its property in the cache for good. *)
Theorem negated_stand_in_refuted : exists c h k d, Sound c /\ Regular h /\ In (k, d) (oc_props c) /\
  ~ Stands h d d /\ forall h', Regular (h ++ h') -> (forall e, In e h' -> exists u t, e = Register u t) -> answer c (h ++ h') k = Ok d.
Proof.
  exists {| oc_props := [("next", standin)]; oc_patterns := []; oc_additional := nothing; oc_aliases := []; oc_negated := [("last", "next")] |},
    [Ask "last"; Register "node" nodety], "next", standin.
  set (c := {| oc_props := _ |}). split; [|split; [|split; [left; reflexivity|split]]].
  - split; [|split; [|split]].
    + repeat constructor; cbn; intuition congruence.
    + repeat constructor; cbn; intuition congruence.
    + intros a b i [[= <- <-]|[]] [[= e _]|[]].
    + intros k d D n. inversion D as [? i|l1 f ? l2 _ el ef|]; subst; [| |cbn in n; congruence].
      * cbn in i. destruct i as [[= <- <-]|[]]. reflexivity.
      * destruct l1; discriminate.
  - split.
    + intros u p q i j. cbn in i, j. destruct i as [i|[i|[]]]; try discriminate. destruct j as [j|[j|[]]]; try discriminate. congruence.
    + intros u p i. cbn in i. destruct i as [i|[i|[]]]; try discriminate. injection i as <- <-. auto.
  - intros H. inversion H as [? e|? u eu nu|? u p eu i]; subst; [discriminate| |].
    + cbn in eu. injection eu as <-. apply (nu nodety). right. left. reflexivity.
    + cbn in i. destruct i as [i|[i|[]]]; discriminate.
  - intros h' _ hr. unfold answer.
    assert (E : fst (after c ([Ask "last"; Register "node" nodety] ++ h')) = fst (after c [Ask "last"; Register "node" nodety])).
    { induction h' as [|e h' IH] using rev_ind; [rewrite app_nil_r; reflexivity|]. rewrite app_assoc, after_snoc.
      destruct (hr e) as (u & t & ->); [apply in_app_iff; right; left; reflexivity|]. cbn [step fst]. apply IH.
      intros e' i. apply hr. apply in_app_iff. left. exact i. }
    rewrite E. reflexivity.
Qed.
Print Assumptions negated_stand_in_refuted.

(** FINDING: a recursive property declared with additional keywords beside its reference is built as a class derived from the
    stand-in; the lookup takes it for the stand-in and answers the type without the keywords. *)
Theorem extension_lost_refuted : exists c h k d p, Sound c /\ Regular h /\ In (k, d) (oc_props c) /\ d <> standin /\
  ty_stand d = ty_stand standin /\ p <> d /\ answer c h k = Ok p.
Proof.
  exists {| oc_props := [("next", extended)]; oc_patterns := []; oc_additional := nothing; oc_aliases := []; oc_negated := [] |},
    [Register "node" nodety], "next", extended, nodety.
  split; [|split; [|split; [left; reflexivity|split; [discriminate|split; [reflexivity|split; [discriminate|reflexivity]]]]]].
  - split; [|split; [|split]].
    + repeat constructor; cbn; intuition congruence.
    + constructor.
    + intros a b i [].
    + intros k d D n. inversion D as [? i|l1 f ? l2 _ el ef|]; subst; [| |cbn in n; congruence].
      * cbn in i. destruct i as [[= <- <-]|[]]. reflexivity.
      * destruct l1; discriminate.
  - split.
    + intros u p q i j. cbn in i, j. destruct i as [i|[]]; try discriminate. destruct j as [j|[]]; try discriminate. congruence.
    + intros u p i. cbn in i. destruct i as [i|[]]; try discriminate. injection i as <- <-. auto.
Qed.
Print Assumptions extension_lost_refuted.
