(** ngoschema/types/foreign_key.py: ForeignKey._convert 103-118, _serialize 128-133, _resolve 152-163;
    ngoschema/session.py: Session.resolve_fkey 77-83; ngoschema/types/array.py: Array.__call__ 119-122 for the Tuple type. *)
From Verif Require Export Types_Model Repo_Model.
Local Open Scope list_scope.

Section Convert.
  (** [conv t v]: [t._convert(t, v)] for the types of the foreign keys.
      [inst v]: when [v] is an instance of the foreign class, the values of its attributes [self._foreignKeys] (or the exception). *)
  Variable kt : Type.
  Variable conv : kt -> pyval -> res pyval.
  Variable inst : pyval -> option (res (list pyval)).

  (** [tuple(t._convert(t, v) for t, v in zip(fkt, value))] (118) *)
  Fixpoint conv_zip (fkt : list kt) (vs : list pyval) : res (list pyval) :=
    match fkt, vs with
    | t :: fkt', v :: vs' => do w <- conv t v; do ws <- conv_zip fkt' vs'; Ok (w :: ws)
    | _, _ => Ok []
    end.
  (** the class Array: no minimum, several values, default [] (array.py:20-25, 92-99); [split_string=True] (115).
      Simplification: strings evaluated as expressions or templates are not covered. *)
  Definition array_class : array_cfg := {| a_min := 0; a_many := true; a_split := false; a_delim := [","%char]; a_default := [] |}.
  Definition split_opts : array_opts := {| o_split := Some true; o_delim := None; o_many := None |}.
  (** 116-118 *)
  Definition conv_keys (fkt : list kt) (vs : list pyval) : res pyval :=
    match fkt with
    | [t] => match vs with [] => Err IndexError | v :: _ => conv t v end
    | _ => do ws <- conv_zip fkt vs; Ok (VTup ws)
    end.
  Definition fkey_convert (fkt : list kt) (value : pyval) : res pyval :=
    match value with
    | VNone => Ok VNone                                                               (* 105-106 *)
    | _ =>
        match inst value with
        | Some r => do vs <- r; conv_keys fkt vs                                      (* 108-109 *)
        | None =>
            match value with
            | VInt z => if Z.ltb z 0 then Ok VNone else conv_keys fkt [value]         (* 110-113 *)
            | VBool _ => conv_keys fkt [value]
            | _ => do vs <- array_deserialize array_class split_opts value; conv_keys fkt vs  (* 115 *)
            end
        end
    end.
  (** 128-133: several keys are zipped, so the value must be iterable *)
  Definition fkey_serialize (fkt : list kt) (value : pyval) : res pyval :=
    match fkt with
    | [t] => conv t value
    | _ => match value with
           | VTup l | VList l => do ws <- conv_zip fkt l; Ok (VTup ws)
           | VStr s => do ws <- conv_zip fkt (map (fun c => VStr (String c EmptyString)) (list_ascii_of_string s)); Ok (VTup ws)
           | VDict l => do ws <- conv_zip fkt (map (fun kv => VStr (fst kv)) l); Ok (VTup ws)
           | _ => Err TypeError
           end
    end.
End Convert.
Arguments conv_zip {kt} conv fkt vs.
Arguments conv_keys {kt} conv fkt vs.
Arguments fkey_convert {kt} conv inst fkt value.
Arguments fkey_serialize {kt} conv fkt value.

(** Tuple(strDelimiter=',') applied to an argument (decorators.py:146, array.py:119-122, 30-55): [value or []], and the delimiter
    is not used since splitting is off *)
Definition as_tuple (value : pyval) : res (list pyval) :=
  array_deserialize array_class no_opts (if truthy value then value else VList []).
(** the key as looked up in the catalog, an ordered dictionary: [True == 1]; unhashable parts raise *)
Definition kval_of (v : pyval) : res kval :=
  match v with
  | VNone => Ok Repo_Model.KNone
  | VBool b => Ok (Repo_Model.KInt (if b then 1 else 0))
  | VInt z => Ok (Repo_Model.KInt z)
  | VStr s => Ok (Repo_Model.KStr s)
  | _ => Err TypeError
  end.
Fixpoint kvals_of (vs : list pyval) : res (list kval) :=
  match vs with [] => Ok [] | v :: vs' => do k <- kval_of v; do ks <- kvals_of vs'; Ok (k :: ks) end.

(** a session's repositories: whether the class of the repository is a subclass of the wanted one, and the repository *)
Definition bound := list (bool * repo).
(** 152-163 *)
Definition fkey_resolve (rs : bound) (key : pyval) : res nat :=
  do vs <- as_tuple key; do ks <- kvals_of vs;
  match filter fst rs with
  | [] => Err InvalidValue
  | (_, r) :: _ => resolve_fkey r ks                 (* 160: raises when the first has not got it; the value is never None *)
  end.
(** session.py:77-83 *)
Fixpoint session_find (rs : bound) (ks : list kval) : res nat :=
  match rs with
  | [] => Err (UserError 83)
  | (sub, r) :: rs' => if sub && repo_contains r ks then resolve_fkey r ks else session_find rs' ks
  end.
Definition session_resolve (rs : bound) (key : pyval) : res nat :=
  do vs <- as_tuple key; do ks <- kvals_of vs; session_find rs ks.

(** the Integer type (numerics.py:54-56, converter.py:20-30) as a key type *)
Definition integer_conv (v : pyval) : res pyval :=
  match v with
  | VNone => Ok VNone
  | VBool _ | VInt _ => Ok v
  | VStr s => match parse_int (chars s) with Some z => Ok (VInt z) | None => Err ConversionError end
  | _ => Err ConversionError
  end.
(** the String type on strings and on nothing; [str()] of other values is not covered *)
Definition string_conv (v : pyval) : res pyval := match v with VNone | VStr _ => Ok v | _ => Err OutOfFuel end.
