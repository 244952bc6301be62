(** Arrays of a protocol class as mutable sequences: ngoschema/protocols/array_protocol.py, collection_protocol.py, and the
    methods taken from [collections.MutableSequence]. Simplifications: one type for all the items ([items] is not a list),
    in a fixed context; of the array validations, which check neither size nor uniqueness (C24), only the hashing of
    items remains ([unique]): the schema has no other keyword that applies to a whole array; the inputs of an item are not
    kept (an array has no dependencies, and reading a name in an array fails and is logged,
    collection_protocol.py:100-116). Plain slices [i:j] with 0 <= i <= j only. *)
From Verif Require Export PyVal Cmp_Model.
From Verif Require Query_Model.

(** * Python lists *)
(** where [l.insert(i, x)] puts [x] *)
Definition py_clamp (n : nat) (i : Z) : nat :=
  if Z.ltb i 0 then Z.to_nat (Z.max 0 (i + Z.of_nat n)) else Nat.min (Z.to_nat i) n.
Definition py_insert {A} (i : Z) (x : A) (l : list A) : list A :=
  firstn (py_clamp (length l) i) l ++ x :: skipn (py_clamp (length l) i) l.
(** the position an index refers to *)
Definition py_pos (n : nat) (i : Z) : res nat :=
  let j := if Z.ltb i 0 then (i + Z.of_nat n)%Z else i in
  if Z.ltb j 0 then Err IndexError else if Z.ltb j (Z.of_nat n) then Ok (Z.to_nat j) else Err IndexError.
Definition py_set {A} (i : Z) (x : A) (l : list A) : res (list A) :=
  do p <- py_pos (length l) i; Ok (firstn p l ++ x :: skipn (S p) l).
Definition py_del {A} (i : Z) (l : list A) : res (list A) :=
  do p <- py_pos (length l) i; Ok (firstn p l ++ skipn (S p) l).
Definition py_get {A} (i : Z) (l : list A) : res A :=
  do p <- py_pos (length l) i; match nth_error l p with Some x => Ok x | None => Err IndexError end.

(** [_data] and [_dataValidated]; None ([VNone]) in the second means not evaluated *)
Record arr := { a_data : list pyval; a_val : list pyval }.

Section Arrays.
  (** [_items_evaluate] of a raw value (collection_protocol.py:118-136) *)
  Variable ev : pyval -> res pyval.
  (** [_items_type(item).is_primitive()], and [Pattern.check or Expr.check] of a raw value *)
  Variable prim : bool.
  Variable expr : pyval -> bool.
  Variable lazy : bool.                                                                   (* _lazyLoading *)
  Variable unique : bool.                                                                 (* _uniqueItems *)
  Variable dflt : list pyval.                                                             (* _default *)
  Variable min_items : nat.                                                               (* _minItems *)

  (** array_protocol.py:43-46; [_deserialize] makes a new list of the raw values (types/array.py:49) *)
  Definition a_fresh (raw : list pyval) : arr := {| a_data := raw; a_val := map (fun _ => VNone) raw |}.

  (** collection_protocol.py:180-188 [_set_dataValidated] *)
  Definition a_set_validated (i : Z) (v : pyval) (s : arr) : res arr :=
    do orig <- py_get i (a_data s);
    do d <- (if prim && expr orig then Ok (a_data s) else py_set i v (a_data s));
    do w <- py_set i v (a_val s);
    Ok {| a_data := d; a_val := w |}.
  Definition a_evaluate (i : Z) (s : arr) : res arr :=
    do raw <- py_get i (a_data s); do v <- ev raw; a_set_validated i v s.

  (** 150-154 [__getitem__] *)
  Definition a_get (i : Z) (s : arr) : res pyval * arr :=
    match py_get i (a_val s) with
    | Err e => (Err e, s)
    | Ok VNone => match a_evaluate i s with Err e => (Err e, s) | Ok s' => (py_get i (a_val s'), s') end
    | Ok v => (Ok v, s)
    end.
  (** 144-148 [__setitem__]: the new raw value stays when evaluating it fails *)
  Definition a_set (i : Z) (v : pyval) (s : arr) : res pyval * arr :=
    match py_set i v (a_data s) with
    | Err e => (Err e, s)
    | Ok d => let s1 := {| a_data := d; a_val := a_val s |} in
              if lazy then (Ok VNone, s1)
              else match a_evaluate i s1 with Err e => (Err e, s1) | Ok s2 => (Ok VNone, s2) end
    end.
  (** array_protocol.py:75-83 *)
  Definition a_put (i : Z) (v : pyval) (s : arr) : res pyval * arr :=
    let s1 := {| a_data := py_insert i v (a_data s); a_val := py_insert i VNone (a_val s) |} in
    if lazy then (Ok VNone, s1)
    else match a_evaluate i s1 with Err e => (Err e, s1) | Ok s2 => (Ok VNone, s2) end.
  (** 84 [self._validate(self, value)]: it is the value that is validated as if it were the array, once it is in. With
      'uniqueItems' its own items are hashed (types/array.py:60-61): a value without items raises TypeError *)
  Definition iterates (v : pyval) : bool :=
    match v with
    | VStr _ | VDict _ => true
    | VList l | VTup l => forallb Query_Model.hashable l
    | _ => false
    end.
  Definition check_value (v : pyval) : res pyval := if unique && negb (iterates v) then Err TypeError else Ok VNone.
  Definition a_insert (i : Z) (v : pyval) (s : arr) : res pyval * arr :=
    match a_put i v s with (Ok _, s') => (check_value v, s') | r => r end.
  (** [_validate(self, self)]: with 'uniqueItems' every item is read and hashed *)
  Fixpoint hash_from (n i : nat) (s : arr) : res pyval * arr :=
    match n with
    | 0 => (Ok VNone, s)
    | S n' =>
        match a_get (Z.of_nat i) s with
        | (Err IndexError, s') => (Ok VNone, s')
        | (Err e, s') => (Err e, s')
        | (Ok v, s') => if Query_Model.hashable v then hash_from n' (S i) s' else (Err TypeError, s')
        end
    end.
  Definition check_self (s : arr) : res pyval * arr := if unique then hash_from (length (a_val s)) 0 s else (Ok VNone, s).
  (** collection_protocol.py:156-160 [__delitem__] *)
  Definition a_drop (i : Z) (s : arr) : res pyval * arr :=
    match py_del i (a_data s) with
    | Err e => (Err e, s)
    | Ok d => match py_del i (a_val s) with
              | Err e => (Err e, {| a_data := d; a_val := a_val s |})
              | Ok w => (Ok VNone, {| a_data := d; a_val := w |})
              end
    end.
  Definition a_del (i : Z) (s : arr) : res pyval * arr := match a_drop i s with (Ok _, s') => check_self s' | r => r end.
  Definition a_len (s : arr) : nat := length (a_data s).                                  (* array_protocol.py:72-73 *)

  (** * collections.abc.Sequence and MutableSequence *)
  (** [__iter__]: items 0, 1, ... until an IndexError, wherever it comes from. [n] bounds the number of items: the
      validated list. *)
  Fixpoint iter_from (n : nat) (i : nat) (s : arr) : res (list pyval) * arr :=
    match n with
    | 0 => (Ok [], s)                                          (* [self[i]] is out of range *)
    | S n' =>
        match a_get (Z.of_nat i) s with
        | (Err IndexError, s') => (Ok [], s')
        | (Err e, s') => (Err e, s')
        | (Ok v, s') => match iter_from n' (S i) s' with (Ok l, s2) => (Ok (v :: l), s2) | (Err e, s2) => (Err e, s2) end
        end
    end.
  Definition a_iter (s : arr) : res (list pyval) * arr := iter_from (length (a_val s)) 0 s.
  (** [index(value)] *)
  Fixpoint index_from (n : nat) (i : nat) (x : pyval) (s : arr) : res nat * arr :=
    match n with
    | 0 => (Err ValueError, s)
    | S n' =>
        match a_get (Z.of_nat i) s with
        | (Err IndexError, s') => (Err ValueError, s')
        | (Err e, s') => (Err e, s')
        | (Ok v, s') => if val_eq v x then (Ok i, s') else index_from n' (S i) x s'
        end
    end.
  Definition a_index (x : pyval) (s : arr) : res nat * arr := index_from (length (a_val s)) 0 x s.
  Definition a_append (v : pyval) (s : arr) : res pyval * arr := a_insert (Z.of_nat (a_len s)) v s.
  Fixpoint a_extend (vs : list pyval) (s : arr) : res pyval * arr :=
    match vs with
    | [] => (Ok VNone, s)
    | v :: vs' => match a_append v s with (Err e, s') => (Err e, s') | (Ok _, s') => a_extend vs' s' end
    end.
  Definition a_pop (i : Z) (s : arr) : res pyval * arr :=
    match a_get i s with
    | (Err e, s') => (Err e, s')
    | (Ok v, s') => match a_del i s' with (Err e, s2) => (Err e, s2) | (Ok _, s2) => (Ok v, s2) end
    end.
  Definition a_remove (x : pyval) (s : arr) : res pyval * arr :=
    match a_index x s with
    | (Err e, s') => (Err e, s')
    | (Ok i, s') => a_del (Z.of_nat i) s'
    end.
  (** [reverse]: one swap, both items read before both are assigned *)
  Definition a_swap (i j : nat) (s : arr) : res pyval * arr :=
    match a_get (Z.of_nat j) s with
    | (Err e, s') => (Err e, s')
    | (Ok vj, s1) => match a_get (Z.of_nat i) s1 with
                     | (Err e, s') => (Err e, s')
                     | (Ok vi, s2) => match a_set (Z.of_nat i) vj s2 with
                                      | (Err e, s') => (Err e, s')
                                      | (Ok _, s3) => a_set (Z.of_nat j) vi s3
                                      end
                     end
    end.
  Fixpoint reverse_from (n i len : nat) (s : arr) : res pyval * arr :=
    match n with
    | 0 => (Ok VNone, s)
    | S n' => match a_swap i (len - i - 1) s with (Err e, s') => (Err e, s') | (Ok _, s') => reverse_from n' (S i) len s' end
    end.
  Definition a_reverse (s : arr) : res pyval * arr := reverse_from (Nat.div2 (a_len s)) 0 (a_len s) s.

  (** [__init__] (collection_protocol.py:46-53) on the deserialized values: with eager loading the items are read once, by
      [list(self)]; then the array is validated *)
  Definition a_create (raw : list pyval) : res arr :=
    match (if lazy then (Ok [], a_fresh raw) else a_iter (a_fresh raw)) with
    | (Err e, _) => Err e
    | (Ok _, s) => match check_self s with (Err e, _) => Err e | (Ok _, s') => Ok s' end
    end.
  (** 45 with types/collection.py:77 [value or self._default] and types/array.py:54, for a list *)
  Definition a_deserialize (raw : list pyval) : list pyval :=
    let v := match raw with [] => dflt | _ => raw end in v ++ repeat VNone (min_items - length v).
  (** 206 [copy] *)
  Definition a_copy (s : arr) : res arr := a_create (a_deserialize (a_data s)).

  (** 209-221 [__eq__] with a sequence of items *)
  Fixpoint eq_from (i : nat) (other : list pyval) (s : arr) : res bool * arr :=
    match other with
    | [] => (Ok true, s)
    | v :: other' =>
        match a_get (Z.of_nat i) s with
        | (Err e, s') => (Err e, s')
        | (Ok x, s') => if val_eq x v then eq_from (S i) other' s' else (Ok false, s')
        end
    end.
  Definition a_eq (other : list pyval) (s : arr) : res bool * arr :=
    if Nat.eqb (a_len s) (length other) then eq_from 0 other s else (Ok false, s).

  (** slices: [self[i:j]] is a slice of [_dataValidated], which is not None; [self[i:j] = vs] changes [_data], then (eager)
      evaluates the slice as one item: an error for a scalar item type (simplification: always) *)
  Definition a_get_slice (i j : nat) (s : arr) : list pyval := firstn (j - i) (skipn i (a_val s)).
  Definition a_set_slice (i j : nat) (vs : list pyval) (s : arr) : res pyval * arr :=
    let s1 := {| a_data := firstn i (a_data s) ++ vs ++ skipn j (a_data s); a_val := a_val s |} in
    if lazy then (Ok VNone, s1) else (Err TypeError, s1).

  Inductive aop := AGet (i : Z) | ASet (i : Z) (v : pyval) | AInsert (i : Z) (v : pyval) | ADel (i : Z) | ALen | AIter
                 | AIndex (v : pyval) | AAppend (v : pyval) | AExtend (vs : list pyval) | APop (i : Z) | ARemove (v : pyval)
                 | AReverse | AEq (other : list pyval).
  Definition in_list (r : res (list pyval) * arr) : res pyval * arr := (do l <- fst r; Ok (VList l), snd r).
  Definition in_int (r : res nat * arr) : res pyval * arr := (do n <- fst r; Ok (VInt (Z.of_nat n)), snd r).
  Definition in_bool (r : res bool * arr) : res pyval * arr := (do b <- fst r; Ok (VBool b), snd r).
  Definition a_step (o : aop) (s : arr) : res pyval * arr :=
    match o with
    | AGet i => a_get i s
    | ASet i v => a_set i v s
    | AInsert i v => a_insert i v s
    | ADel i => a_del i s
    | ALen => (Ok (VInt (Z.of_nat (a_len s))), s)
    | AIter => in_list (a_iter s)
    | AIndex v => in_int (a_index v s)
    | AAppend v => a_append v s
    | AExtend vs => a_extend vs s
    | APop i => a_pop i s
    | ARemove v => a_remove v s
    | AReverse => a_reverse s
    | AEq other => in_bool (a_eq other s)
    end.
  Fixpoint a_run (ops : list aop) (s : arr) : list (res pyval) * arr :=
    match ops with
    | [] => ([], s)
    | o :: ops' => let (r, s1) := a_step o s in let (rs, s2) := a_run ops' s1 in (r :: rs, s2)
    end.
End Arrays.
