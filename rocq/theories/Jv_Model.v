(** Validating a value against a schema: ngoschema/protocols/validator.py:48-72 (_errors, _format_errors, _validate) with
    the keywords of ngoschema/managers/jsch_validators.py:17-51, as jsonschema's [iter_errors] runs them, and the kinds of
    values of TypeBuilder.is_type (managers/type_builder.py:51-56, 166). A value is any nested data; a keyword applies to
    it whatever its type, since "type" is not among the keywords (jsch_validators.py:17-51). Simplifications: integers only;
    [$recursiveRef] (54-72) and the keywords on paths (93-109) are left out; "format" does nothing (no format checker is
    given); "additionalItems" beside a boolean "items" (a TypeError) is left out; "then" and "else" come with "if"; a schema
    has a keyword at most once; several patterns joined by "|" match when one of them does; the messages
    of the errors are left out. *)
From Verif Require Export Cmp_Model.
Local Open Scope list_scope.

Inductive jschema := JBool (b : bool) | JObj (l : list jkw)
with jkw :=
| KType (l : list string) | KRef (u : string) | KNote (name : string)
| KEnum (l : list pyval) | KConst (c : pyval)
| KMin (z : Z) | KMax (z : Z) | KExMin (z : Z) | KExMax (z : Z) | KMultiple (z : Z)
| KMinLen (n : nat) | KMaxLen (n : nat) | KPattern (p : string)
| KMinItems (n : nat) | KMaxItems (n : nat) | KUnique (b : bool)
| KItems (s : jschema) | KItemsAt (l : list jschema) | KRest (s : jschema) | KContains (s : jschema)
| KProps (l : list (string * jschema)) | KPats (l : list (string * jschema)) | KMore (s : jschema) | KNames (s : jschema)
| KDefs (old : bool) (l : list (string * jschema))
| KRequired (l : list string) | KMinProps (n : nat) | KMaxProps (n : nat)
| KNeeds (l : list (string * list string)) (m : list (string * jschema))       (* "dependencies": lists of names, schemas *)
| KAllOf (l : list jschema) | KAnyOf (l : list jschema) | KOneOf (l : list jschema) | KNot (s : jschema)
| KIf (c : jschema) (t e : option jschema).

Definition kname (k : jkw) : string :=
  match k with
  | KType _ => "type" | KRef _ => "$ref" | KNote n => n | KEnum _ => "enum" | KConst _ => "const"
  | KMin _ => "minimum" | KMax _ => "maximum" | KExMin _ => "exclusiveMinimum" | KExMax _ => "exclusiveMaximum"
  | KMultiple _ => "multipleOf" | KMinLen _ => "minLength" | KMaxLen _ => "maxLength" | KPattern _ => "pattern"
  | KMinItems _ => "minItems" | KMaxItems _ => "maxItems" | KUnique _ => "uniqueItems"
  | KItems _ | KItemsAt _ => "items" | KRest _ => "additionalItems" | KContains _ => "contains"
  | KProps _ => "properties" | KPats _ => "patternProperties" | KMore _ => "additionalProperties" | KNames _ => "propertyNames"
  | KDefs old _ => if old then "definitions" else "$defs" | KRequired _ => "required" | KMinProps _ => "minProperties" | KMaxProps _ => "maxProperties"
  | KNeeds _ _ => "dependencies" | KAllOf _ => "allOf" | KAnyOf _ => "anyOf" | KOneOf _ => "oneOf" | KNot _ => "not"
  | KIf _ _ _ => "if"
  end%string.

(** the [schema_path] of an error: keywords, names and positions *)
Definition path := list (string + nat).

(** type_builder.py:51-56 [is_type(value, 'array')]: a list, or a text, which [Array._check] (types/array.py:167-176) splits in
    characters; a tuple is none ([_pyType] is list) *)
Definition as_array (v : pyval) : option (list pyval) :=
  match v with
  | VList l => Some l
  | VStr s => Some (map (fun c => VStr (String c EmptyString)) (list_ascii_of_string s))
  | _ => None
  end.
(** object.py:50-54 *)
Definition as_object (v : pyval) : option (list (string * pyval)) := match v with VDict d => Some d | _ => None end.
(** numerics.py:43-46: booleans are numbers *)
Definition as_number (v : pyval) : option Z := num_of v.
Definition as_text (v : pyval) : option string := match v with VStr s => Some s | _ => None end.

(** jsonschema._utils.equal: a boolean equals the same boolean only *)
Definition same (x y : pyval) : bool :=
  match x, y with
  | VBool a, VBool b => Bool.eqb a b
  | VBool _, _ | _, VBool _ => false
  | _, _ => val_eq x y
  end.
(** jsonschema._validators.enum *)
Definition in_enum (v : pyval) (l : list pyval) : bool :=
  if val_eq v (VInt 0) || val_eq v (VInt 1) then existsb (same v) l else existsb (val_eq v) l.
(** jsonschema._utils.uniq *)
Fixpoint uniq (l : list pyval) : bool := match l with [] => true | x :: l' => negb (existsb (same x) l') && uniq l' end.

Definition fail_unless (b : bool) : list path := if b then [] else [[]].
Definition when {A} (o : option A) (f : A -> list path) : list path := match o with Some a => f a | None => [] end.
(** [f] at each position, from [i] *)
Definition indexed {A} (f : nat -> A -> list path) : nat -> list A -> list path :=
  fix go (i : nat) (l : list A) : list path := match l with [] => [] | x :: l' => f i x ++ go (S i) l' end.
(** schemas and items side by side, from position [i] *)
Definition zipped {A B} (f : nat -> A -> B -> list path) : nat -> list A -> list B -> list path :=
  fix go (i : nat) (l : list A) (m : list B) : list path :=
    match l, m with x :: l', y :: m' => f i x y ++ go (S i) l' m' | _, _ => [] end.
Definition none (l : list path) : bool := match l with [] => true | _ => false end.
(** how many of the schemas a value is valid under *)
Definition count_ok {A} (f : A -> list path) : list A -> nat :=
  fix go (l : list A) : nat := match l with [] => 0 | x :: l' => (if none (f x) then 1 else 0) + go l' end.

Section Search.
  (** [re.search(pattern, text)] *)
  Variable search : string -> string -> bool.

  (** jsonschema._utils.find_additional_properties: the names and patterns beside the keyword *)
  Definition names_of (l : list jkw) : list string := flat_map (fun k => match k with KProps p => map fst p | _ => [] end) l.
  Definition patterns_of (l : list jkw) : list string := flat_map (fun k => match k with KPats p => map fst p | _ => [] end) l.
  Definition extra (sibs : list jkw) (k : string) : bool :=
    negb (mem k (names_of sibs)) && negb (existsb (fun p => search p k) (patterns_of sibs)).
  (** the number of schemas in a list of "items" beside the keyword; "items" that is no list makes "additionalItems" void *)
  Definition positions_of (l : list jkw) : option nat :=
    match flat_map (fun k => match k with KItemsAt p => [length p] | _ => [] end) l with n :: _ => Some n | [] => None end.
  Definition has_ref (l : list jkw) : bool := existsb (fun k => match k with KRef _ => true | _ => false end) l.

  (** jsonschema [iter_errors]: with a '$ref' nothing else is looked at, and '$ref' itself is not registered
      (jsch_validators.py:18); each error is prefixed with its keyword. jsonschema._validators for the keywords. *)
  Fixpoint errors (s : jschema) (v : pyval) {struct s} : list path :=
    match s with
    | JBool b => fail_unless b
    | JObj l => if has_ref l then [] else flat_map (fun k => map (cons (inl (kname k))) (kerrors l k v)) l
    end
  with kerrors (sibs : list jkw) (k : jkw) (v : pyval) {struct k} : list path :=
    match k with
    | KType _ | KRef _ | KNote _ => []
    | KEnum l => fail_unless (in_enum v l)
    | KConst c => fail_unless (same v c)
    | KMin z => when (as_number v) (fun n => fail_unless (Z.leb z n))
    | KMax z => when (as_number v) (fun n => fail_unless (Z.leb n z))
    | KExMin z => when (as_number v) (fun n => fail_unless (Z.ltb z n))
    | KExMax z => when (as_number v) (fun n => fail_unless (Z.ltb n z))
    | KMultiple z => when (as_number v) (fun n => fail_unless (Z.eqb (Z.modulo n z) 0))
    | KMinLen n => when (as_text v) (fun t => fail_unless (Nat.leb n (String.length t)))
    | KMaxLen n => when (as_text v) (fun t => fail_unless (Nat.leb (String.length t) n))
    | KPattern p => when (as_text v) (fun t => fail_unless (search p t))
    | KMinItems n => when (as_array v) (fun a => fail_unless (Nat.leb n (length a)))
    | KMaxItems n => when (as_array v) (fun a => fail_unless (Nat.leb (length a) n))
    | KUnique b => when (as_array v) (fun a => fail_unless (negb b || uniq a))
    | KItems s => when (as_array v) (flat_map (errors s))
    | KItemsAt l => when (as_array v) (zipped (fun i s x => map (cons (inr i)) (errors s x)) 0 l)
    | KRest s => when (as_array v) (fun a => when (positions_of sibs) (fun n => flat_map (errors s) (skipn n a)))
    | KContains s => when (as_array v) (fun a => fail_unless (existsb (fun x => none (errors s x)) a))
    | KProps l | KDefs _ l => when (as_object v) (fun d =>
        flat_map (fun p => when (dget (fst p) d) (fun x => map (cons (inl (fst p))) (errors (snd p) x))) l)
    | KPats l => when (as_object v) (fun d =>
        flat_map (fun p => flat_map (fun e => if search (fst p) (fst e) then map (cons (inl (fst p))) (errors (snd p) (snd e)) else []) d) l)
    | KMore s => when (as_object v) (fun d => flat_map (fun e => if extra sibs (fst e) then errors s (snd e) else []) d)
    | KNames s => when (as_object v) (fun d => flat_map (fun e => errors s (VStr (fst e))) d)
    | KRequired l => when (as_object v) (fun d => flat_map (fun k => fail_unless (dmem k d)) l)
    | KMinProps n => when (as_object v) (fun d => fail_unless (Nat.leb n (length d)))
    | KMaxProps n => when (as_object v) (fun d => fail_unless (Nat.leb (length d) n))
    | KNeeds l m => when (as_object v) (fun d =>
        flat_map (fun p => if dmem (fst p) d then flat_map (fun k => fail_unless (dmem k d)) (snd p) else []) l
        ++ flat_map (fun p => if dmem (fst p) d then map (cons (inl (fst p))) (errors (snd p) v) else []) m)
    | KAllOf l => indexed (fun i s => map (cons (inr i)) (errors s v)) 0 l
    | KAnyOf l => fail_unless (negb (Nat.eqb (count_ok (fun s => errors s v) l) 0))
    | KOneOf l => fail_unless (Nat.eqb (count_ok (fun s => errors s v) l) 1)
    | KNot s => fail_unless (negb (none (errors s v)))
    | KIf c t e =>
        if none (errors c v)
        then match t with Some s => map (cons (inl "then"%string)) (errors s v) | None => [] end
        else match e with Some s => map (cons (inl "else"%string)) (errors s v) | None => [] end
    end.

  (** validator.py:52-58: a joined path is a text; joining a position raises TypeError *)
  Fixpoint join_path (p : path) : res (list string) :=
    match p with
    | [] => Ok []
    | inl x :: p' => do r <- join_path p'; Ok (x :: r)
    | inr _ :: _ => Err TypeError
    end.
  Fixpoint join_paths (l : list path) : res (list (list string)) :=
    match l with [] => Ok [] | p :: l' => do x <- join_path p; do r <- join_paths l'; Ok (x :: r) end.
  Definition report (excludes : list string) (with_type : bool) (l : list jkw) (v : pyval) : res (list (list string)) :=
    let excludes := if with_type then excludes else excludes ++ ["type"%string] in
    do paths <- join_paths (errors (JObj (filter (fun k => negb (mem (kname k) excludes)) l)) v);
    Ok (dedup paths).
  (** 60-72; every path of keywords has a message, so a report with an error is never empty *)
  Definition validate (excludes : list string) (with_type : bool) (l : list jkw) (v : pyval) : res pyval :=
    do r <- report excludes with_type l v;
    match r with [] => Ok v | _ => Err InvalidValue end.
End Search.
