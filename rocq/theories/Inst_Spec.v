(** What a property of an instance should read as, from the values assigned to it and to the properties it depends on.
    Nothing here mentions a cache. *)
From Verif Require Import Cmp_Spec Inst_Model.

Section Spec.
  Variable c : icls.
  Variable heap : list pyval.
  (** the values each property is used with *)
  Variable dom : string -> pyval -> Prop.

  (** the names an item's value depends on: those declared, and those its raw value mentions *)
  Definition inputs_of (k : string) (raw : pyval) : list string :=
    (match dget k (ic_deps c) with Some s => s | None => [] end) ++ (if ic_prim c k then ic_ins c k raw else []).

  (** [Value A k r]: with the assigned values [A], evaluating [k] gives [r]; inputs that cannot be evaluated are left out *)
  Inductive Value (A : dict string pyval) : string -> res pyval -> Prop :=
  | value_missing k : dget k A = None -> Value A k (Err KeyError)
  | value_eval k raw e : dget k A = Some raw -> Inputs A (inputs_of k raw) [] e -> Value A k (ic_eval c heap k raw e)
  with Inputs (A : dict string pyval) : list string -> env -> env -> Prop :=
  | inputs_nil e : Inputs A [] e e
  | inputs_ok k ks v e e' : Value A k (Ok v) -> Inputs A ks (dset k v e) e' -> Inputs A (k :: ks) e e'
  | inputs_err k ks x e e' : Value A k (Err x) -> Inputs A ks e e' -> Inputs A (k :: ks) e e'.

  (** [k] is [item] or depends on it, directly or not *)
  Inductive Dependent (item : string) : string -> Prop :=
  | dependent_refl : Dependent item item
  | dependent_step k d s : Dependent item k -> In (d, s) (ic_deps c) -> In k s -> Dependent item d.

  (** literals: raw values that are neither patterns nor expressions *)
  Definition literal (k : string) (raw : pyval) : Prop := ic_prim c k && ic_expr c raw = false.

  (** the dependencies, with the values assigned, are acyclic and within the recursion limit: every name has a rank *)
  Definition Acyclic (A : dict string pyval) : Prop :=
    exists rank : string -> nat,
      (forall k raw k', dget k A = Some raw -> In k' (inputs_of k raw) -> rank k' < rank k) /\
      (forall d s k, In (d, s) (ic_deps c) -> In k s -> rank k < rank d) /\
      (forall k, rank k < ic_limit c).

  (** values of the right kind *)
  Definition Kinds (A : dict string pyval) : Prop := forall k v, dget k A = Some v -> dom k v.
  (** What is assumed of the item types and of the class: the values of a property are of a kind in which only a value and itself
      are equal (not both booleans and integers), and evaluation looks inputs up by name; literals mention no name, are converted independently of any input, and converting a converted value changes
      nothing; types have no default for an explicit None; every property is declared and none has a getter. *)
  Record Regular : Prop := {
    reg_kind : forall k u v, dom k u -> dom k v -> PyEq u v -> u = v;
    reg_eval_kind : forall k raw e v, dom k raw -> Kinds e -> ic_eval c heap k raw e = Ok v -> dom k v;
    reg_by_name : forall k raw e e', (forall x, dget x e = dget x e') -> ic_eval c heap k raw e = ic_eval c heap k raw e';
    reg_literal_inputs : forall k raw, literal k raw -> ic_prim c k = true -> ic_ins c k raw = [];
    reg_literal_eval : forall k raw e e', literal k raw -> ic_eval c heap k raw e = ic_eval c heap k raw e';
    reg_literal_stable : forall k raw e v, literal k raw -> ic_eval c heap k raw e = Ok v ->
        literal k v /\ forall e', ic_eval c heap k v e' = Ok v;
    reg_none : forall k e, literal k VNone /\ ic_eval c heap k VNone e = Ok VNone;
    reg_declared : forall k, ic_declared c k = true;
    reg_no_getter : forall k, ic_getter c k = None
  }.

  (** The values assigned so far. An assignment that is refused (read-only property, or property deleted before) and a
      deletion that is refused change nothing. *)
  Definition assigned_after (o : iop) (A : dict string pyval) : dict string pyval :=
    match o with
    | SetItem k v | SetAttr k v => if mem k (ic_readonly c) then A else if dmem k A then dset k v A else A
    | DelAttr k => if mem k (ic_required c) then A else ddel k A
    | DelItem k => if mem k (ic_translated c) && mem k (ic_required c) then A else ddel k A
    | GetItem _ | Mutate _ _ => A
    end.
  Definition refused (k : string) (A : dict string pyval) : Prop := In k (ic_readonly c) \/ dget k A = None.
  (** operations after which the caches are right: anything but changing a value in place, and, with eager loading,
      an assignment whose evaluation raises *)
  Definition admissible (o : iop) (r : res pyval) (A : dict string pyval) : Prop :=
    match o with
    | Mutate _ _ => False
    | SetItem k v | SetAttr k v => ic_lazy c = true \/ is_ok r = true \/ refused k A
    | _ => True
    end.

  (** [History A0 ops A s]: [s] is reached from a new instance holding [A0] by the operations [ops], all admissible and
      keeping the dependencies acyclic, with values of the right kinds; [A] are the values assigned in the end *)
  Inductive History (A0 : dict string pyval) : list iop -> dict string pyval -> ist -> Prop :=
  | history_new : Acyclic A0 -> Kinds A0 -> History A0 [] A0 (fresh A0 heap)
  | history_step ops A s o r s' : History A0 ops A s -> step c o s = (r, s') -> admissible o r A ->
      Acyclic (assigned_after o A) -> Kinds (assigned_after o A) -> History A0 (ops ++ [o]) (assigned_after o A) s'.
End Spec.
