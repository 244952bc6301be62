(** C58: evaluating a scalar yields a value of the type that satisfies the schema, or raises. *)
From Verif Require Import Scal_Proofs.
From Coq Require Import Lia.
Local Close Scope Q_scope.

Section Props.
  Variable int_of : list ascii -> option Z.
  Variable dec_of : list ascii -> option (Z * nat).
  Variable show : sval -> list ascii.
  Variable eval : list ascii -> res sval.
  Variable render : list ascii -> res (list ascii).
  Notation evaluates := (evaluate int_of dec_of show eval render).
  Notation Lit := (Literal int_of dec_of show).

  Lemma evaluate_some t d s raw v : v <> SNone ->
    evaluates t d s raw v = (do w <- prim_convert int_of dec_of show eval render t raw v; do _ <- validate false s w; Ok w).
  Proof. intros h. unfold evaluate. destruct v; try contradiction; destruct d; reflexivity. Qed.
  Lemma after_convert t d s v w : v <> SNone -> prim_convert int_of dec_of show eval render t false v = Ok w ->
    evaluates t d s false v = validate false s w.
  Proof.
    intros hv hw. rewrite evaluate_some by exact hv. rewrite hw. cbn.
    destruct (validate false s w) as [r|e] eqn:hr; cbn; [|reflexivity]. apply validate_ok in hr as [-> _]. reflexivity.
  Qed.
  Lemma prim_plain t v : ~ Expression v -> ~ Template v ->
    prim_convert int_of dec_of show eval render t false v = type_convert int_of dec_of show t v.
  Proof.
    intros he ht. unfold prim_convert.
    assert (h1 : is_expr v = false) by (destruct (is_expr v) eqn:h; [exfalso; apply he, is_expr_spec; exact h | reflexivity]).
    assert (h2 : is_pattern v = false) by (destruct (is_pattern v) eqn:h; [exfalso; apply ht, (is_template v h1); exact h | reflexivity]).
    rewrite h1, h2. destruct (truth_of v); reflexivity.
  Qed.

  (** Whatever is evaluated, the result is None, or a value of the type satisfying every constraint of the schema. *)
  Theorem evaluation_sound : forall t d s v r,
    evaluates t d s false v = Ok r -> r = SNone \/ (Inhabits t r /\ SatisfiesConstraints s r).
  Proof.
    intros t d s v r h.
    assert (hp : forall x w, prim_convert int_of dec_of show eval render t false x = Ok w -> w = SNone \/ Inhabits t w).
    { intros x w. unfold prim_convert. apply conv_inhabits. }
    assert (hg : forall x, (do w <- prim_convert int_of dec_of show eval render t false x; do _ <- validate false s w; Ok w) = Ok r ->
                 r = SNone \/ (Inhabits t r /\ SatisfiesConstraints s r)).
    { intros x hx. destruct (prim_convert int_of dec_of show eval render t false x) as [w|] eqn:hw; [|discriminate]. cbn in hx.
      destruct (validate false s w) as [u|] eqn:hu; [|discriminate]. cbn in hx. injection hx as ->.
      apply validate_ok in hu as [_ hs]. destruct (hp _ _ hw) as [-> | hi]; [left; reflexivity | right; auto]. }
    unfold evaluate in h. destruct v; try (destruct d; exact (hg _ h)).
    destruct d; try exact (hg _ h). injection h as <-. left. reflexivity.
  Qed.

  (** A literal: it evaluates to the value of the type it stands for when that value satisfies the constraints; it is rejected
      with InvalidValue when it does not, and with ConversionError when it stands for no value. *)
  Theorem literal_evaluation : forall t d s v, v <> SNone -> ~ Expression v -> ~ Template v ->
    (forall r, Lit t v r -> SatisfiesConstraints s r -> evaluates t d s false v = Ok r) /\
    (forall r k, Lit t v r -> NoAllOf s -> In k s -> (forall ty, k <> KType ty) -> KDenies k r ->
       evaluates t d s false v = Err InvalidValue) /\
    ((forall r, ~ Lit t v r) -> evaluates t d s false v = Err ConversionError).
  Proof.
    intros t d s v hv he ht. split; [|split].
    - intros r hl hs. apply conv_literal in hl; [|exact hv]. rewrite (after_convert t d s v r hv).
      + apply validate_sat. exact hs.
      + rewrite prim_plain by assumption. exact hl.
    - intros r k hl hno hin hk hd. apply conv_literal in hl; [|exact hv]. rewrite (after_convert t d s v r hv).
      + apply (validate_invalid s r k); auto. intros l hl'. exfalso. exact (hno l hl').
      + rewrite prim_plain by assumption. exact hl.
    - intros hn. rewrite evaluate_some, prim_plain by assumption.
      destruct (type_convert int_of dec_of show t v) as [r|e] eqn:hc.
      + exfalso. apply (hn r). apply conv_literal; assumption.
      + rewrite (conv_fails _ _ _ _ _ _ hc). reflexivity.
  Qed.

  (** None: the default, evaluated like any value; None when there is none. *)
  Theorem default_evaluation : forall t d s raw,
    evaluates t d s raw SNone = match d with SNone => Ok SNone | _ => evaluates t SNone s raw d end.
  Proof. intros t d s raw. destruct d; reflexivity. Qed.

  (** Evaluating the result again gives it back, unless it is itself an expression or a template. *)
  Theorem evaluation_idempotent : forall t d d' s v r,
    evaluates t d s false v = Ok r -> r <> SNone -> ~ Expression r -> ~ Template r -> evaluates t d' s false r = Ok r.
  Proof.
    intros t d d' s v r h hn he ht. destruct (evaluation_sound _ _ _ _ _ h) as [-> | [hi hs]]; [contradiction|].
    apply (literal_evaluation t d' s r hn he ht); [apply Lit_same; exact hi | exact hs].
  Qed.

  (** An expression: its value is turned into text, and the text is read as a literal; an expression whose value is None
      gives None when None satisfies the constraints. *)
  Definition printed (x : sval) : list ascii := match x with SStr u => u | _ => show x end.
  Lemma prim_expr t u x : eval ("`"%char :: u) = Ok x -> x <> SNone ->
    prim_convert int_of dec_of show eval render t false (SStr ("`"%char :: u)) = type_convert int_of dec_of show t (SStr (printed x)).
  Proof.
    intros hx hn. unfold prim_convert, expr_convert. cbn [truth_of is_expr text_of]. rewrite hx. cbn [rbind].
    destruct x; try contradiction; reflexivity.
  Qed.
  Theorem expression_evaluation : forall t d s u x, eval ("`"%char :: u) = Ok x -> x <> SNone ->
    (forall r, Lit t (SStr (printed x)) r -> SatisfiesConstraints s r -> evaluates t d s false (SStr ("`"%char :: u)) = Ok r) /\
    ((forall r, ~ Lit t (SStr (printed x)) r) -> evaluates t d s false (SStr ("`"%char :: u)) = Err ConversionError).
  Proof.
    intros t d s u x hx hn. pose proof (prim_expr t u x hx hn) as hp. split.
    - intros r hl hs. apply conv_literal in hl; [|discriminate]. rewrite (after_convert t d s _ r); [apply validate_sat; exact hs | discriminate |].
      rewrite hp. exact hl.
    - intros hno. rewrite evaluate_some by discriminate. rewrite hp.
      destruct (type_convert int_of dec_of show t (SStr (printed x))) as [r|e] eqn:hc.
      + exfalso. apply (hno r). apply conv_literal; [discriminate | exact hc].
      + rewrite (conv_fails _ _ _ _ _ _ hc). reflexivity.
  Qed.
  Theorem template_evaluation : forall t d s v u w, Template v -> v = SStr u -> render u = Ok w ->
    (forall r, Lit t (SStr w) r -> SatisfiesConstraints s r -> evaluates t d s false v = Ok r) /\
    ((forall r, ~ Lit t (SStr w) r) -> evaluates t d s false v = Err ConversionError).
  Proof.
    intros t d s v u w ht -> hr.
    assert (he : is_expr (SStr u) = false).
    { destruct (is_expr (SStr u)) eqn:h; [|reflexivity]. exfalso. apply (proj1 ht). apply is_expr_spec. exact h. }
    assert (hu : truth_of (SStr u) = true).
    { destruct ht as [_ [a [c [b [h _]]]]]. injection h as ->. destruct a; reflexivity. }
    assert (hp : prim_convert int_of dec_of show eval render t false (SStr u) = type_convert int_of dec_of show t (SStr w)).
    { unfold prim_convert. rewrite hu, he. rewrite (proj2 (is_template _ he) ht). unfold pattern_convert. cbn [text_of].
      rewrite hr. reflexivity. }
    split.
    - intros r hl hs. apply conv_literal in hl; [|discriminate]. rewrite (after_convert t d s _ r); [apply validate_sat; exact hs | discriminate |].
      rewrite hp. exact hl.
    - intros hno. rewrite evaluate_some by discriminate. rewrite hp.
      destruct (type_convert int_of dec_of show t (SStr w)) as [r|e] eqn:hc.
      + exfalso. apply (hno r). apply conv_literal; [discriminate | exact hc].
      + rewrite (conv_fails _ _ _ _ _ _ hc). reflexivity.
  Qed.

  (** * what is surprising *)
  (** an expression that fails is not an error: its text is read as a literal. A string property then holds the text of the
      expression; a number reports that the text is not a number. *)
  Theorem failing_expression_kept_refuted : forall d s u e, eval ("`"%char :: u) = Err e ->
    SatisfiesConstraints s (SStr ("`"%char :: u)) ->
    evaluates TString d s false (SStr ("`"%char :: u)) = Ok (SStr ("`"%char :: u)) /\
    (int_of ("`"%char :: u) = None -> evaluates TInteger d s false (SStr ("`"%char :: u)) = Err ConversionError).
  Proof.
    intros d s u e he hs.
    assert (hp : forall t, prim_convert int_of dec_of show eval render t false (SStr ("`"%char :: u)) = type_convert int_of dec_of show t (SStr ("`"%char :: u))).
    { intros t. unfold prim_convert, expr_convert. cbn [truth_of is_expr text_of]. rewrite he. reflexivity. }
    split.
    - rewrite (after_convert TString d s _ (SStr ("`"%char :: u))); [apply validate_sat; exact hs | discriminate |]. rewrite hp. reflexivity.
    - intros hi. rewrite evaluate_some by discriminate. rewrite hp. cbn [type_convert]. rewrite hi. reflexivity.
  Qed.
  (** with raw literals neither the type nor the bounds of a number are enforced on a text *)
  Theorem raw_literals_unchecked_refuted : forall t d m k m' k' u,
    evaluates t d [KType t; KMin m k; KMax m' k'] true (SStr u) = Ok (SStr u).
  Proof. intros. rewrite evaluate_some by discriminate. reflexivity. Qed.
  (** booleans are accepted for integers: they stay booleans, and have the bounds of 1 and 0 *)
  Theorem boolean_integer_refuted : forall d s b, SatisfiesConstraints s (SBool b) ->
    evaluates TInteger d s false (SBool b) = Ok (SBool b) /\
    (forall m k, KSays (KMin m k) (SBool b) <-> KSays (KMin m k) (SInt (if b then 1 else 0))) /\
    (forall m k, KSays (KMax m k) (SBool b) <-> KSays (KMax m k) (SInt (if b then 1 else 0))).
  Proof.
    intros d s b hs. split.
    - apply literal_evaluation; [discriminate| | |apply Lit_same; constructor|exact hs].
      + intros [x h]; discriminate.
      + intros [_ [a [c [x [h _]]]]]; discriminate.
    - split; intros m k; rewrite !says_iff; reflexivity.
  Qed.
  (** a fractional number given as a literal is cut to its integer part; as the value of an expression it is an error *)
  Theorem fractional_expression_refuted : forall d s u m k,
    eval ("`"%char :: u) = Ok (SFloat m k) -> int_of (show (SFloat m k)) = None ->
    SatisfiesConstraints s (SInt (Z.quot m (10 ^ Z.of_nat k))) ->
    evaluates TInteger d s false (SFloat m k) = Ok (SInt (Z.quot m (10 ^ Z.of_nat k))) /\
    evaluates TInteger d s false (SStr ("`"%char :: u)) = Err ConversionError.
  Proof.
    intros d s u m k he hi hs. split.
    - rewrite (after_convert TInteger d s _ (SInt (Z.quot m (10 ^ Z.of_nat k)))); [apply validate_sat; exact hs | discriminate |].
      rewrite prim_plain; [reflexivity | intros [x h]; discriminate | intros [_ [a [c [b [h _]]]]]; discriminate].
    - apply (expression_evaluation TInteger d s u _ he); [discriminate|]. cbn [printed]. intros r hl. inversion hl; subst.
      + match goal with h : Inhabits TInteger (SStr _) |- _ => inversion h end.
      + match goal with h : IsNumber (SStr _) _ |- _ => inversion h end.
      + congruence.
  Qed.
  (** a value that fails under allOf raises TypeError instead of InvalidValue *)
  Theorem allof_failure_refuted : forall t d s v r l, v <> SNone -> ~ Expression v -> ~ Template v ->
    Lit t v r -> In (KAllOf l) s -> KDenies (KAllOf l) r -> evaluates t d s false v = Err TypeError.
  Proof.
    intros t d s v r l hv he ht hl hin hd. apply conv_literal in hl; [|exact hv].
    rewrite (after_convert t d s v r hv); [apply (validate_allof s r l hin hd) | rewrite prim_plain by assumption; exact hl].
  Qed.
End Props.

(** A schema checks what it says: the verdict of the modelled validator is the meaning of the keywords, for any value. *)
Theorem schema_verdict : forall s v,
  (SatisfiesConstraints s v -> validate false s v = Ok v) /\
  (validate false s v = Ok v -> SatisfiesConstraints s v) /\
  (forall k, KSays k v -> KDenies k v -> False) /\ (forall k, KSays k v \/ KDenies k v).
Proof.
  intros s v. split; [apply validate_sat|]. split; [intros h; apply (validate_ok s v v h)|]. split; [apply says_not_denies|].
  intros k. destruct (kerrors v k) eqn:h; [left; apply says_iff; exact h | right; apply denies_iff; rewrite h; discriminate].
Qed.

(** The types named within a schema are never checked: every value satisfies them, so a choice between types is none, and
    "not" of a type refuses everything. *)
Theorem schema_type_refuted : forall t v,
  (forall s, validate false (KType t :: s) v = validate false s v) /\
  (forall s, validate true (KType t :: s) v = validate true s v) /\
  (forall l, In [KType t] l -> validate false [KAnyOf l] v = Ok v) /\ validate false [KNot [KType t]] v = Err InvalidValue.
Proof.
  intros t v. split; [reflexivity|]. split; [reflexivity|]. split; [|reflexivity]. intros l i. apply validate_sat. intros k [<-|[]] _.
  apply (Says_anyof l [KType t] v i). intros k [<-|[]]. constructor.
Qed.

(** * examples *)
Example boolean_bounded : validate false [KMin 1 0] (SBool true) = Ok (SBool true) /\ validate false [KMin 1 0] (SBool false) = Err InvalidValue.
Proof. split; reflexivity. Qed.
Local Open Scope char_scope.
Definition digits2 (s : list ascii) : option Z := match s with ["4"; "2"] => Some 42%Z | ["-"; "7"] => Some (-7)%Z | _ => None end.
Definition dec2 (s : list ascii) : option (Z * nat) := match s with ["3"; "."; "5"] => Some (35%Z, 1) | _ => None end.
Definition show2 (v : sval) : list ascii := match v with SInt 42 => ["4"; "2"] | SFloat 35 1 => ["3"; "."; "5"] | _ => ["?"] end.
Definition eval2 (s : list ascii) : res sval :=
  match s with ["`"; "a"] => Ok (SInt 42) | ["`"; "b"] => Ok (SFloat 35 1) | ["`"; "c"] => Ok (SStr ["`"; "a"]) | _ => Err NameError end.
Definition render2 (s : list ascii) : res (list ascii) := Ok ["4"; "2"].
Notation ev2 := (evaluate digits2 dec2 show2 eval2 render2).
Definition bounded : schema := [KType TInteger; KMin 0 0; KExMax 1000 1].           (* 0 <= x < 100 *)
Example ex_text : ev2 TInteger SNone bounded false (SStr ["4"; "2"]) = Ok (SInt 42).
Proof. reflexivity. Qed.
Example ex_low : ev2 TInteger SNone bounded false (SStr ["-"; "7"]) = Err InvalidValue.
Proof. reflexivity. Qed.
Example ex_word : ev2 TInteger SNone bounded false (SStr ["x"]) = Err ConversionError.
Proof. reflexivity. Qed.
Example ex_float : ev2 TInteger SNone bounded false (SFloat (-9) 1) = Ok (SInt 0).
Proof. reflexivity. Qed.
Example ex_expr : ev2 TInteger SNone bounded false (SStr ["`"; "a"]) = Ok (SInt 42).
Proof. reflexivity. Qed.
Example ex_expr_float : ev2 TInteger SNone bounded false (SStr ["`"; "b"]) = Err ConversionError /\ ev2 TInteger SNone bounded false (SFloat 35 1) = Ok (SInt 3).
Proof. split; reflexivity. Qed.
Example ex_template : ev2 TInteger SNone bounded false (SStr ["{"; "{"; "x"; "}"; "}"]) = Ok (SInt 42).
Proof. reflexivity. Qed.
Example ex_not_idempotent : ev2 TString SNone [] false (SStr ["`"; "c"]) = Ok (SStr ["`"; "a"]) /\ ev2 TString SNone [] false (SStr ["`"; "a"]) = Ok (SStr ["4"; "2"]).
Proof. split; reflexivity. Qed.
Example ex_default : ev2 TNumber (SStr ["3"; "."; "5"]) [KMin 0 0] false SNone = Ok (SDec 35 1).
Proof. reflexivity. Qed.
Example ex_any : ev2 TInteger SNone [KAnyOf [[KMax 10 0]; [KMin 20 0; KMax 50 0]]; KNot [KMin 42 0; KMax 42 0]] false (SInt 42) = Err InvalidValue
  /\ ev2 TInteger SNone [KAnyOf [[KMax 10 0]; [KMin 20 0; KMax 50 0]]; KNot [KMin 42 0; KMax 42 0]] false (SInt 41) = Ok (SInt 41).
Proof. split; reflexivity. Qed.
Example ex_allof : ev2 TInteger SNone [KAllOf [[KMin 3 0]; [KMax 5 0]]] false (SInt 7) = Err TypeError.
Proof. reflexivity. Qed.
Example ex_denied : KDenies (KAllOf [[KMin 3 0]; [KMax 5 0]]) (SInt 7).
Proof. apply (Denies_allof _ [KMax 5 0] (KMax 5 0)); cbn; auto. apply (Denies_max _ _ _ (inject_Z 7)); [constructor | reflexivity]. Qed.
Example ex_satisfied : SatisfiesConstraints bounded (SInt 42).
Proof.
  intros k hk hn. destruct hk as [<- | [<- | [<- | []]]]; [exfalso; exact (hn _ eq_refl) | |]; constructor; intros q h; inversion h; subst; cbn; discriminate + reflexivity.
Qed.

Print Assumptions evaluation_sound.
Print Assumptions literal_evaluation.
Print Assumptions default_evaluation.
Print Assumptions evaluation_idempotent.
Print Assumptions expression_evaluation.
Print Assumptions template_evaluation.
Print Assumptions failing_expression_kept_refuted.
Print Assumptions raw_literals_unchecked_refuted.
Print Assumptions boolean_integer_refuted.
Print Assumptions schema_type_refuted.
Print Assumptions fractional_expression_refuted.
Print Assumptions allof_failure_refuted.
Print Assumptions schema_verdict.
