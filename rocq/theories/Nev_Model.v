(** Evaluation of nested values by the types Object, Array and Tuple: ngoschema/types/collection.py, object.py, array.py,
    protocols/validator.py. Types refer to one another by number ([tys]), so that a type may contain itself.
    Simplifications: keys are strings; a set is iterated in the order of the mapping it was made of; the schema keywords a
    type checks on a whole value (all but those of [o_excl], [a_excl]) are a function of the value; scalar types are a
    conversion and a validation (C58 has them for numbers and text); 'dependencies' is not given as an option, so that the
    call order is 'required first'; a sequence of pairs is not taken for a mapping; options 'only', 'excludes' and
    'pyType' are not given by the caller; defaults are not changed by evaluating them (the code makes a shallow copy).
    Nested objects are those of an array of Object types; the classes that type_builder.build makes of object schemas behave
    alike when they load eagerly (the default setting) and have no '$schema', aliases or notValidated, except that they
    order members by their dependencies only (C27), wrap the result in an instance of the class, and look at no member when
    they validate without evaluating (C88).
    The fuel is the depth Python's recursion limit leaves. *)
From Verif Require Export PyVal.
From Verif Require Query_Model.


Record scal := {
  sc_conv : pyval -> res pyval;     (* [_convert], on values that are not None *)
  sc_val : pyval -> res unit;       (* [_validate] with [with_type=False] *)
  sc_default : pyval
}.
Record ocfg := {
  o_props : dict string nat;                     (* _properties *)
  o_pats : list ((string -> bool) * nat);        (* _propertiesPattern *)
  o_add : option nat;                            (* _propertiesAdditional, None when false *)
  o_req : list string;                           (* _required *)
  o_js : pyval -> res unit;
  o_default : pyval
}.
Record acfg := {
  a_items : nat + list nat;                      (* _items; a list when _itemsIsList *)
  a_unique : bool;
  a_tuple : bool;                                (* _pyType is tuple *)
  a_js : pyval -> res unit;
  a_default : pyval                              (* simplification: the default of an object or array is not null *)
}.
Inductive node := NScal (s : scal) | NObj (o : ocfg) | NArr (a : acfg).

Definition is_null (v : pyval) : bool := match v with VNone => true | _ => false end.
(** object.py:147-165 Object._items_type *)
Definition prop_type (o : ocfg) (k : string) : res nat :=
  match dget k (o_props o) with
  | Some t => Ok t
  | None => match find (fun p => fst p k) (o_pats o) with
            | Some p => Ok (snd p)
            | None => match o_add o with Some t => Ok t | None => Err KeyError end
            end
  end.
(** array.py:125-129 Array._items_type *)
Definition elem_type (a : acfg) (i : nat) : res nat :=
  match a_items a with
  | inl t => Ok t
  | inr ts => match nth_error ts i with Some t => Ok t | None => Err IndexError end
  end.
(** [OrderedDict(value)], [list(value)]; simplification: lists of pairs are not taken for mappings *)
Definition to_dict (v : pyval) : res (list (string * pyval)) :=
  match v with
  | VDict l => Ok l
  | VList [] | VTup [] | VStr EmptyString => Ok []
  | _ => Err TypeError
  end.
Fixpoint letters (s : string) : list pyval :=
  match s with EmptyString => [] | String c s' => VStr (String c EmptyString) :: letters s' end.
Definition to_list (v : pyval) : res (list pyval) :=
  match v with
  | VList l | VTup l => Ok l
  | VStr s => Ok (letters s)
  | VDict l => Ok (map (fun kv => VStr (fst kv)) l)
  | _ => Err TypeError
  end.
(** object.py:54-57: [value.get(k) for k in call_order]: the required keys, null when missing, then the others *)
Definition or_null (o : option pyval) : pyval := match o with Some v => v | None => VNone end.
Definition reorder (req : list string) (l : list (string * pyval)) : list (string * pyval) :=
  map (fun k => (k, or_null (dget k l))) req ++ filter (fun kv => negb (mem (fst kv) req)) l.

Section Nested.
  Variable tys : nat -> node.

  Definition default_of (t : nat) : pyval :=
    match tys t with NScal s => sc_default s | NObj o => o_default o | NArr a => a_default a end.

  (** ** conversion. collection.py:82-90 Collection._convert, with object.py:54-57 and array.py:35-38 *)
  Fixpoint types_of (o : ocfg) (l : list (string * pyval)) : res (list nat) :=
    match l with
    | [] => Ok []
    | (k, _) :: l' => do t <- prop_type o k; do ts <- types_of o l'; Ok (t :: ts)
    end.
  Fixpoint conv_props (f : nat -> pyval -> res pyval) (ts : list nat) (l : list (string * pyval)) : res (list (string * pyval)) :=
    match ts, l with
    | t :: ts', (k, v) :: l' =>
        do w <- (if is_null v then Ok v else f t v); do r <- conv_props f ts' l'; Ok ((k, w) :: r)
    | _, _ => Ok []
    end.
  (** 120-123 Array._items_types: with a list of types, items beyond it have none *)
  Fixpoint conv_elems (f : nat -> pyval -> res pyval) (a : acfg) (i : nat) (l : list pyval) : res (list pyval) :=
    match l with
    | [] => Ok []
    | v :: l' =>
        do w <- (if is_null v then Ok v else match elem_type a i with Ok t => f t v | Err _ => Ok v end);
        do r <- conv_elems f a (S i) l'; Ok (w :: r)
    end.
  Fixpoint convert (n : nat) (t : nat) (v : pyval) : res pyval :=
    match n with
    | 0 => Err RecursionError
    | S n' =>
        match tys t with
        | NScal s => sc_conv s v
        | NObj o =>
            do l <- to_dict v; do ts <- types_of o l; do l' <- conv_props (convert n') ts l;
            Ok (VDict (reorder (o_req o) l'))
        | NArr a =>
            do l <- to_list v; do l' <- conv_elems (convert n') a 0 l;
            Ok (if a_tuple a then VTup l' else VList l')
        end
    end.

  (** ** validation. collection.py:92-101 Collection._validate, object.py:59-65, 215-229, array.py:57-64, 190-196.
      [excl] are the keywords left out so far: they are handed down as [excludes], and keys so named are skipped *)
  Definition o_excl : list string := ["required"; "properties"; "propertiesAdditional"; "additionalProperties"]%string.
  Definition a_excl : list string := ["minItems"; "maxItems"; "uniqueItems"; "items"]%string.
  Definition undeclared (o : ocfg) (k : string) : bool :=
    match dget k (o_props o) with Some _ => false | None => negb (existsb (fun p => fst p k) (o_pats o)) end.
  Fixpoint val_props (f : nat -> pyval -> res unit) (o : ocfg) (excl : list string) (l : list (string * pyval)) : res unit :=
    match l with
    | [] => Ok tt
    | (k, v) :: l' =>
        do t <- prop_type o k;
        do _ <- (if mem k excl || is_null v then Ok tt else f t v);
        val_props f o excl l'
    end.
  Fixpoint val_elems (f : nat -> pyval -> res unit) (a : acfg) (i : nat) (l : list pyval) : res unit :=
    match l with
    | [] => Ok tt
    | v :: l' =>
        do _ <- (if is_null v then Ok tt else match elem_type a i with Ok t => f t v | Err _ => Ok tt end);
        val_elems f a (S i) l'
    end.
  Fixpoint validate (n : nat) (excl : list string) (t : nat) (v : pyval) : res unit :=
    match n with
    | 0 => Err RecursionError
    | S n' =>
        match tys t, v with
        | NScal s, _ => sc_val s v
        | NObj o, VDict l =>
            if existsb (undeclared o) (dkeys l) && match o_add o with Some _ => false | None => true end then Err InvalidValue   (* 219-225 *)
            else if negb (forallb (fun k => dmem k l) (o_req o)) then Err InvalidValue                                         (* 61-63 *)
            else do _ <- o_js o v; val_props (validate n' (excl ++ o_excl)) o (excl ++ o_excl) l
        | NArr a, (VList l | VTup l) =>
            do _ <- a_js a v;
            if a_unique a && negb (forallb Query_Model.hashable l) then Err TypeError                                          (* 59-60 *)
            else val_elems (validate n' (excl ++ a_excl)) a 0 l
        | _, _ => Err TypeError
        end
    end.

  (** ** evaluation without conversion: collection.py:103-111 with [convert=False], validator.py:74-85. The value of a
      null is the default, as it is. A member is put back at its key; items cannot be put back in a tuple *)
  Fixpoint fill_props (f : nat -> pyval -> res pyval) (o : ocfg) (l : list (string * pyval)) : res (list (string * pyval)) :=
    match l with
    | [] => Ok []
    | (k, v) :: l' => do t <- prop_type o k; do w <- f t v; do r <- fill_props f o l'; Ok ((k, w) :: r)
    end.
  Fixpoint fill_elems (f : nat -> pyval -> res pyval) (a : acfg) (i : nat) (l : list pyval) : res (list pyval) :=
    match l with
    | [] => Ok []
    | v :: l' => do t <- elem_type a i; do w <- f t v; do r <- fill_elems f a (S i) l'; Ok (w :: r)
    end.
  Fixpoint fill (n : nat) (t : nat) (v : pyval) : res pyval :=
    match n with
    | 0 => Err RecursionError
    | S n' =>
        match (if is_null v then default_of t else v) with
        | VNone => Ok VNone
        | v' =>
            match tys t, v' with
            | NScal s, _ => do _ <- sc_val s v'; Ok v'
            | NObj o, VDict l =>
                do l' <- fill_props (fill n') o l; do _ <- validate n' [] t (VDict l'); Ok (VDict l')
            | NArr a, VList l =>
                do l' <- fill_elems (fill n') a 0 l; do _ <- validate n' [] t (VList l'); Ok (VList l')
            | NArr a, VTup l =>
                match l with
                | [] => do _ <- validate n' [] t (VTup []); Ok (VTup [])
                | v1 :: _ => do t1 <- elem_type a 0; do _ <- fill n' t1 v1; Err TypeError
                end
            | _, _ => Err TypeError
            end
        end
    end.
  (** validator.py:103-105 [evaluate]: a null is replaced by the default before the conversion *)
  Definition evaluate (n : nat) (t : nat) (v : pyval) : res pyval :=
    match (if is_null v then default_of t else v) with
    | VNone => Ok VNone
    | v' => do w <- convert n t v'; fill n t w
    end.
End Nested.
