From Verif Require Import Vi_Model Vi_Spec Vi_Proofs Jv_Spec Cmp_Spec Jv_Proofs Jv_Props.
From Coq Require Import Lia Arith.
Local Open Scope list_scope.

Section Search.
  Variable search : string -> string -> bool.
  Notation validate_by := (validate_by search).
  Notation SatP := (SatK search program []).

  Lemma said_ext T i P Q : (forall c, P c <-> Q c) -> (SaidBy T i P <-> SaidBy T i Q).
  Proof. intros h. split; intros (a & c & h1 & h2 & h3); exists a, c; repeat split; try assumption; apply h; exact h3. Qed.
  Lemma gathered_at (T : list cdecl) (wf : Declared T) {A} (f : kls -> list A) (g : cdecl -> list A) (P : A -> cdecl -> Prop) :
    (forall i c k, nth_error T i = Some c -> nth_error (build_all T) i = Some k -> f k = g c ++ flat_map (the f (build_all T)) (kept (build_all T) c)) ->
    (forall x c, In x (g c) <-> P x c) ->
    forall i c k x, nth_error T i = Some c -> nth_error (build_all T) i = Some k -> (In x (f k) <-> SaidBy T i (P x)).
  Proof.
    intros hf hp i c k x e ek. rewrite <- (the_at T f i k ek). rewrite (gathered T wf f g) by
      (try exact e; intros j cj ej; destruct (class_at T wf j cj ej) as (kj & ekj & _); rewrite (the_at T f j kj ekj); exact (hf j cj kj ej ekj)).
    apply said_ext. intros c'. apply hp.
  Qed.

  (** ** which data a class accepts *)
  (** [Class.validate(d)] returns the data, as it is, exactly when every name the class or an ancestor requires is there; when
      the schema of the class itself refuses further properties, every name is declared or matched by the class or an
      ancestor; and the other keywords in force hold. *)
  Theorem class_validate_exact : forall T i c excludes d w, Declared T -> Once T -> nth_error T i = Some c ->
    (validate_by T i excludes d = Ok w <->
     w = VDict d /\ Complete T i d /\ (Closed c -> Known search T i d) /\ Holds search T i excludes d).
  Proof.
    intros T i c ex d w wf once e. destruct (class_at T wf i c e) as (k & ek & _ & _ & _ & em & _ & _ & _).
    unfold Vi_Model.validate_by. rewrite ek. unfold class_validate.
    assert (hreq : forall n, In n (ks_req k) <-> SaidBy T i (Requires n)).
    { intros n. apply (gathered_at T wf ks_req (fun c => required_of (cd_own c)) Requires) with (c := c); try assumption.
      - intros j cj kj ej ekj. destruct (class_at T wf j cj ej) as (kj' & ekj' & h & _). congruence.
      - intros x cj. apply required_of_In. }
    assert (hnam : forall n, In n (ks_names k) <-> SaidBy T i (Declares n)).
    { intros n. apply (gathered_at T wf ks_names (fun c => names_of (cd_own c)) Declares) with (c := c); try assumption.
      - intros j cj kj ej ekj. destruct (class_at T wf j cj ej) as (kj' & ekj' & _ & h & _). congruence.
      - intros x cj. apply names_of_In. }
    assert (hpat : forall p, In p (ks_pats k) <-> SaidBy T i (fun c => exists l, In (KPats l) (cd_own c) /\ In p (map fst l))).
    { intros n. apply (gathered_at T wf ks_pats (fun c => patterns_of (cd_own c)) (fun p c => exists l, In (KPats l) (cd_own c) /\ In p (map fst l))) with (c := c); try assumption.
      - intros j cj kj ej ekj. destruct (class_at T wf j cj ej) as (kj' & ekj' & _ & _ & h & _). congruence.
      - intros x cj. apply patterns_of_In. }
    assert (hnot : forall n, In n (ks_notval k) <-> SaidBy T i (Skips n)).
    { intros n. apply (gathered_at T wf ks_notval cd_notval Skips) with (c := c); try assumption.
      - intros j cj kj ej ekj. destruct (class_at T wf j cj ej) as (kj' & ekj' & _ & _ & _ & _ & h & _). congruence.
      - intros x cj. reflexivity. }
    assert (hmore : ks_more k = false <-> Closed c) by (rewrite em; apply more_of_spec).
    assert (hunk : forall n, unknown search k n = false <-> SaidBy T i (Declares n) \/ SaidBy T i (Matches search n)).
    { intros n. unfold unknown. rewrite andb_false_iff, !negb_false_iff, existsb_exists. rewrite <- hnam. split.
      - intros [h|(p & ip & hs)]; [left; apply mem_In in h; exact h|right]. apply hpat in ip. destruct ip as (a & ca & h1 & h2 & l & h3 & h4).
        exists a, ca. repeat split; try assumption. exists l, p. repeat split; assumption.
      - intros [h|(a & ca & h1 & h2 & l & p & h3 & h4 & h5)].
        + left. destruct (mem n (ks_names k)) eqn:m; [reflexivity|]. apply mem_not_In in m. destruct (m h).
        + right. exists p. split; [|exact h5]. apply hpat. exists a, ca. repeat split; try assumption. exists l. split; assumption. }
    assert (hkn : existsb (unknown search k) (dkeys d) && negb (ks_more k) = false <-> (Closed c -> Known search T i d)).
    { rewrite andb_false_iff, negb_false_iff. split.
      - intros [h|h] hc n hn; [|apply hmore in hc; congruence]. apply hunk. destruct (unknown search k n) eqn:eu; [|reflexivity].
        exfalso. assert (t : existsb (unknown search k) (dkeys d) = true) by (apply existsb_exists; exists n; split; assumption). congruence.
      - intros h. destruct (ks_more k) eqn:ekm; [right; reflexivity|left]. apply hmore in ekm; [|exact eq_refl] || idtac.
        pose proof (h (proj1 hmore eq_refl)) as g. destruct (existsb _ _) eqn:ee; [|reflexivity]. apply existsb_exists in ee.
        destruct ee as (n & i' & hu). apply g in i'. apply hunk in i'. congruence. }
    assert (hcp : negb (forallb (fun n => dmem n d) (ks_req k)) = false <-> Complete T i d).
    { rewrite negb_false_iff, forallb_forall. split; intros h n hn.
      - apply hreq in hn. apply h in hn. apply dmem_In in hn. exact hn.
      - apply hreq in hn. apply dmem_In. exact (h n hn). }
    assert (hh : validate search ((ks_notval k ++ ex) ++ ["required"; "properties"; "propertiesAdditional"; "additionalProperties"]%string) false (ks_schema k) (VDict d) = Ok w
                 <-> w = VDict d /\ Holds search T i ex d).
    { rewrite validate_exact.
      match goal with |- context [without ?x _] => set (L := x) end.
      assert (hL : forall x, In x (without L (ks_schema k)) <-> Looked T i ex x).
      { intros x. unfold without. rewrite filter_In, negb_true_iff. rewrite <- (the_at T ks_schema i k ek).
        rewrite (schema_In T wf once i c x e). unfold Looked. apply and_iff_compat_l.
        assert (em' : mem (kname x) L = false <-> ~ In (kname x) L) by (split; apply mem_not_In). rewrite em'. unfold L, left_out.
        rewrite !in_app_iff, hnot. unfold handled. cbn [In]. tauto. }
      split; intros [h1 h2]; (split; [exact h1|]); destruct h2 as [h2|h2].
      - left. destruct h2 as [_ [u iu]]. exists u. apply hL. exact iu.
      - right. intros x hx. pose proof (proj1 (All_iff _ _) h2) as h3.
        assert (ix : In x (without L (ks_schema k))) by (apply hL; exact hx). apply h3 in ix.
        apply (siblings search (without L (ks_schema k))); [|exact ix]. intros en. apply (proj1 (proj2 hx)). rewrite en. unfold handled. cbn. tauto.
      - left. split; [reflexivity|]. destruct h2 as [u hu]. exists u. apply hL. exact hu.
      - right. apply All_iff. intros x ix. apply hL in ix. pose proof (h2 x ix) as h3. apply siblings; [|exact h3].
        intros en. apply (proj1 (proj2 ix)). rewrite en. unfold handled. cbn. tauto. }
    destruct (existsb (unknown search k) (dkeys d) && negb (ks_more k)) eqn:e1.
    { split; [discriminate|]. intros (_ & _ & h & _). apply hkn in h. discriminate h. }
    destruct (negb (forallb (fun n => dmem n d) (ks_req k))) eqn:e2.
    { split; [discriminate|]. intros (_ & h & _). apply hcp in h. discriminate h. }
    rewrite hh. split.
    - intros [h1 h2]. repeat split; [exact h1|apply hcp; reflexivity|apply hkn; reflexivity|exact h2].
    - intros (h1 & _ & _ & h2). split; assumption.
  Qed.
  (** Everything else is refused with InvalidValue, or TypeError. *)
  Theorem class_validate_refuses : forall T i c excludes d, Declared T -> nth_error T i = Some c ->
    validate_by T i excludes d = Ok (VDict d) \/ validate_by T i excludes d = Err InvalidValue \/ validate_by T i excludes d = Err TypeError.
  Proof.
    intros T i c ex d wf e. destruct (class_at T wf i c e) as (k & ek & _). unfold Vi_Model.validate_by. rewrite ek. unfold class_validate.
    destruct (_ && _); [right; left; reflexivity|]. destruct (negb _); [right; left; reflexivity|].
    match goal with |- context [validate ?a ?b ?c ?d ?e] => destruct (validate a b c d e) as [w|x] eqn:ev end.
    - left. apply validate_exact in ev. destruct ev as [-> _]. reflexivity.
    - right. rewrite <- ev. apply validate_refuses. intros h.
      match type of ev with validate ?a ?b ?c ?d ?e = _ => assert (h' : validate a b c d e = Ok e) by (apply validate_exact; split; [reflexivity|exact h]) end.
      congruence.
  Qed.

  (** ** inheritance *)
  (** Where the base does not refuse further properties and its keywords stay in force, what the derived class accepts the base
      accepts. *)
  Theorem substitutable : forall T i b ci cb excludes d, Declared T -> Once T -> nth_error T i = Some ci -> nth_error T b = Some cb ->
    Anc T i b -> ~ Closed cb -> (forall k, Looked T b excludes k -> Looked T i excludes k) -> (forall u, ~ Looked T i excludes (KRef u)) ->
    validate_by T i excludes d = Ok (VDict d) -> validate_by T b excludes d = Ok (VDict d).
  Proof.
    intros T i b ci cb ex d wf once ei eb ha hc hk hr h. apply (class_validate_exact T i ci) in h; try assumption.
    destruct h as (_ & h1 & _ & h2). apply (class_validate_exact T b cb); try assumption. split; [reflexivity|]. split.
    { intros n (a & c & g1 & g2 & g3). apply h1. exists a, c. repeat split; try assumption. exact (anc_trans T _ _ _ ha g1). }
    split; [intros h3; destruct (hc h3)|]. right. intros k hl. destruct h2 as [[u hu]|h2]; [destruct (hr u hu)|]. apply h2. apply hk. exact hl.
  Qed.
  (** A keyword of a Python base stays in force in the derived class unless its schema has it too. *)
  Theorem python_base_inherited : forall T i c b k, nth_error T i = Some c -> cd_bases c = [b] -> cd_ext c = [] ->
    InForce T b (kname k) (Some k) -> (forall k', In k' (cd_own c) -> kname k' <> kname k) -> InForce T i (kname k) (Some k).
  Proof.
    intros T i c b k e eb ee hb hn. eapply (if_base T i c (kname k) [] b []); try eassumption; [|constructor].
    intros (x & ix & _). rewrite ee in ix. destruct ix.
  Qed.
  (** A keyword of an extended schema does not: beside required and declared names, only the schema of the class itself counts. *)
  Theorem extended_keywords_refuted : forall T i c excludes d, Declared T -> Once T -> nth_error T i = Some c -> cd_bases c = [] -> Complete T i d -> ~ Closed c ->
    (forall k, In k (cd_own c) -> In (kname k) handled \/ SatP k (VDict d)) -> validate_by T i excludes d = Ok (VDict d).
  Proof.
    intros T i c ex d wf once e eb hc ho hk. apply (class_validate_exact T i c); try assumption. split; [reflexivity|]. split; [exact hc|].
    split; [intros h; destruct (ho h)|]. right. intros k (hi & hh & _).
    inversion hi as [? c' k' e' ik|? c' ? pre b post k' e' hn eb' nr hb hp|]; subst.
    - rewrite e in e'. injection e' as <-. destruct (hk k ik) as [h|h]; [destruct (hh h)|exact h].
    - rewrite e in e'. injection e' as <-. rewrite eb in eb'. destruct pre; discriminate eb'.
  Qed.
  (** Refusing further properties is not inherited, by Python bases neither: the derived class takes any name beside. *)
  Theorem closed_lost_refuted : forall T i c excludes d n x, Declared T -> Once T -> nth_error T i = Some c -> ~ Closed c ->
    (forall k, Looked T i excludes k -> match k with KNote _ => True | _ => False end) ->
    validate_by T i excludes d = Ok (VDict d) -> validate_by T i excludes (dset n x d) = Ok (VDict (dset n x d)).
  Proof.
    intros T i c ex d n x wf once e hc hk h. apply (class_validate_exact T i c) in h; try assumption. destruct h as (_ & h1 & _ & _).
    apply (class_validate_exact T i c); try assumption. split; [reflexivity|]. split.
    { intros m hm. apply h1 in hm. unfold Has in *. apply In_dkeys_dset. right. exact hm. }
    split; [intros h3; destruct (hc h3)|]. right. intros k hl. apply hk in hl. destruct k; try destruct hl. exact I.
  Qed.

  (** ** what is not looked at *)
  (** The values of the members are looked at by no type: with keywords that count or name members only, data with the same
      names gets the same answer. *)
  Definition names_only (k : jkw) : Prop :=
    match k with KType _ | KNote _ | KMinProps _ | KMaxProps _ | KNames _ | KRequired _ | KNeeds _ [] => True | _ => False end.
  Lemma names_only_same k d d' : names_only k -> map fst d = map fst d' -> SatP k (VDict d) -> SatP k (VDict d').
  Proof.
    intros hk hm. assert (hl : length d = length d') by (rewrite <- (map_length fst d), hm, map_length; reflexivity).
    destruct k; try destruct hk; try (intros h; exact h).
    - cbn [SatK]. intros h x [= <-] k hin. unfold Has in *. rewrite <- hm in hin. exact (h d eq_refl k hin).
    - cbn [SatK]. intros h x [= <-] k hin. unfold Has in *. rewrite <- hm. exact (h d eq_refl k hin).
    - cbn [SatK]. intros h x [= <-]. rewrite <- hl. exact (h d eq_refl).
    - cbn [SatK]. intros h x [= <-]. rewrite <- hl. exact (h d eq_refl).
    - destruct m; [|destruct hk]. cbn [SatK]. intros h x [= <-]. destruct (h d eq_refl) as [h1 _]. split; [|exact I].
      unfold Has in *. rewrite <- hm. exact h1.
  Qed.
  Theorem members_unchecked_refuted : forall T i c excludes d d', Declared T -> Once T -> nth_error T i = Some c ->
    (forall k, Looked T i excludes k -> names_only k) -> map fst d = map fst d' ->
    validate_by T i excludes d = Ok (VDict d) -> validate_by T i excludes d' = Ok (VDict d').
  Proof.
    intros T i c ex d d' wf once e hk hm h. apply (class_validate_exact T i c) in h; try assumption. destruct h as (_ & h1 & h2 & h3).
    apply (class_validate_exact T i c); try assumption. split; [reflexivity|]. split; [|split].
    - intros n hn. unfold Has. rewrite <- hm. exact (h1 n hn).
    - intros hc n hn. unfold Has in hn. rewrite <- hm in hn. exact (h2 hc n hn).
    - destruct h3 as [h3|h3]; [left; exact h3|right]. intros k hl. apply (names_only_same k d d' (hk k hl) hm). exact (h3 k hl).
  Qed.
  (** A property left out of validation takes the keyword of the same name with it, in the class and all derived ones. *)
  Theorem skipped_keyword_refuted : forall T i c excludes d n, Declared T -> Once T -> nth_error T i = Some c -> ~ Closed c ->
    SaidBy T i (Skips n) -> (forall k, InForce T i (kname k) (Some k) -> kname k <> n -> In (kname k) handled \/ SatP k (VDict d)) -> Complete T i d ->
    validate_by T i excludes d = Ok (VDict d).
  Proof.
    intros T i c ex d n wf once e hc hs hk hcp. apply (class_validate_exact T i c); try assumption. split; [reflexivity|]. split; [exact hcp|].
    split; [intros h; destruct (hc h)|]. right. intros k (h1 & h2 & h3 & h4).
    destruct (hk k h1) as [h|h]; [intros en; rewrite en in h4; exact (h4 hs)|destruct (h2 h)|exact h].
  Qed.
End Search.

(** * examples *)
Local Open Scope string_scope.
Local Open Scope list_scope.
Definition ex_search (p s : string) : bool := beq p s.
(** a closed class with a bounded integer, two classes deriving from it, by Python and by "extends", and one of both *)
Definition ex_table : list cdecl := [
  {| cd_own := [KType ["object"]; KProps [("age", JObj [KType ["integer"]; KMax 150])]; KRequired ["age"]; KMore (JBool false); KMinProps 1; KMaxProps 2];
     cd_notval := []; cd_bases := []; cd_ext := [] |};
  {| cd_own := [KProps [("name", JObj [KType ["string"]])]]; cd_notval := []; cd_bases := [0]; cd_ext := [] |};
  {| cd_own := [KProps [("name", JObj [KType ["string"]])]; KRequired ["name"]]; cd_notval := []; cd_bases := []; cd_ext := [0] |};
  {| cd_own := [KMaxProps 3]; cd_notval := ["minProperties"]; cd_bases := [1]; cd_ext := [2; 0] |};
  {| cd_own := [KMinProps 1; KRequired ["id"]]; cd_notval := []; cd_bases := []; cd_ext := [] |};
  {| cd_own := [KMaxProps 2]; cd_notval := []; cd_bases := [4]; cd_ext := [] |} ].
Example ex_declared : Declared ex_table /\ Once ex_table.
Proof.
  split.
  - intros [|[|[|[|[|[|i]]]]]] c j e h; cbn in e; try (destruct i; discriminate e); injection e as <-; cbn in h; repeat destruct h as [<-|h]; try destruct h; lia.
  - intros [|[|[|[|[|[|i]]]]]] c e; cbn in e; try (destruct i; discriminate e); injection e as <-; cbn;
      repeat (constructor; [cbn; intuition discriminate|]); constructor.
Qed.
Definition ex_v := validate_by ex_search ex_table.
Example ex_results :
  ex_v 0 [] [("age", VInt 30)] = Ok (VDict [("age", VInt 30)])
  /\ ex_v 0 [] [("age", VInt 30); ("x", VNone)] = Err InvalidValue            (* refused: further properties *)
  /\ ex_v 0 [] [] = Err InvalidValue                                          (* age is required *)
  /\ is_ok (ex_v 0 [] [("age", VStr "never")]) = true                         (* the type of age is not looked at *)
  /\ is_ok (ex_v 1 [] [("age", VInt 30); ("x", VNone)]) = true                (* further properties, in a derived class *)
  /\ ex_v 1 [] [("age", VInt 30); ("name", VStr "a"); ("x", VNone)] = Err InvalidValue  (* maxProperties is inherited from a Python base *)
  /\ ex_v 2 [] [("age", VInt 30)] = Err InvalidValue                          (* name is required *)
  /\ is_ok (ex_v 2 [] [("age", VInt 30); ("name", VStr "a"); ("x", VNone)]) = true      (* but not from an extended one *)
  /\ is_ok (ex_v 3 [] [("age", VInt 30); ("name", VStr "a"); ("x", VNone)]) = true
  /\ ex_v 3 [] [("age", VInt 30); ("name", VStr "a"); ("x", VNone); ("y", VNone)] = Err InvalidValue
  /\ is_ok (ex_v 1 ["maxProperties"] [("age", VInt 30); ("name", VStr "a"); ("x", VNone)]) = true.
Proof. repeat split. Qed.
(** nothing is looked at in the third class: [closed_lost_refuted], [members_unchecked_refuted] and [extended_keywords_refuted] apply *)
Example ex_nothing_looked : forall excludes k, ~ Looked ex_table 2 excludes k.
Proof.
  intros ex k (h & hn & _). inversion h as [? c k' e ik|? c ? pre b post k' e hk eb nr hb hp|]; subst; cbn in e; injection e as <-.
  - cbn in ik. destruct ik as [<-|[<-|[]]]; apply hn; cbn; tauto.
  - destruct pre; discriminate eb.
Qed.
(** the hypotheses of [substitutable], for the last two classes *)
Example ex_substitutable : Anc ex_table 5 4 /\ (forall k, Looked ex_table 4 [] k -> Looked ex_table 5 [] k)
  /\ (forall u, ~ Looked ex_table 5 [] (KRef u)) /\ is_ok (ex_v 5 [] [("id", VInt 1)]) = true.
Proof.
  assert (h4 : forall n k, InForce ex_table 4 n (Some k) -> n = kname k /\ (k = KMinProps 1 \/ k = KRequired ["id"])).
  { intros n k h. inversion h as [? c k' e ik|? c ? pre b post k' e hk eb nr hb hp|]; subst; cbn in e; injection e as <-.
    - split; [reflexivity|]. cbn in ik. destruct ik as [<-|[<-|[]]]; [left|right]; reflexivity.
    - destruct pre; discriminate eb. }
  assert (hs : forall i n, ~ SaidBy ex_table i (Skips n) \/ i <> 5).
  { intros i n. destruct (Nat.eq_dec i 5) as [->|]; [left|right; assumption]. intros (a & c & ha & e & h).
    assert (ea : a = 5 \/ a = 4).
    { inversion ha as [|? c' j ? e' ij ha']; subst; [left; reflexivity|right]. cbn in e'. injection e' as <-. cbn in ij. destruct ij as [<-|[]].
      inversion ha' as [|? c' j ? e' ij ha'']; subst; [reflexivity|]. cbn in e'. injection e' as <-. destruct ij. }
    destruct ea as [-> | ->]; cbn in e; injection e as <-; destruct h. }
  split; [eapply anc_up; [reflexivity|left; reflexivity|constructor]|]. split; [|split; [|reflexivity]].
  - intros k (h & h1 & h2 & _). split; [|repeat split; try assumption; destruct (hs 5 (kname k)) as [g|g]; [exact g|destruct (g eq_refl)]].
    eapply (python_base_inherited ex_table 5); try reflexivity; [exact h|]. destruct (h4 _ _ h) as [_ hk].
    cbn. intros k' [<-|[]]; destruct hk as [-> | ->]; discriminate.
  - intros u (h & _). inversion h as [? c k' e ik|? c ? pre b post k' e hk eb nr hb hp|]; subst; cbn in e; injection e as <-.
    + cbn in ik. destruct ik as [ik|[]]. discriminate ik.
    + cbn in eb. assert (b = 4) as -> by (destruct pre as [|? [|? ?]]; cbn in eb; congruence). destruct (h4 _ _ hb) as [_ [g|g]]; discriminate g.
Qed.

Print Assumptions class_validate_exact.
Print Assumptions class_validate_refuses.
Print Assumptions substitutable.
Print Assumptions python_base_inherited.
Print Assumptions extended_keywords_refuted.
Print Assumptions closed_lost_refuted.
Print Assumptions members_unchecked_refuted.
Print Assumptions skipped_keyword_refuted.
