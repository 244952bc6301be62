(** ngoschema/types: array.py, boolean.py, Enum of type.py; protocols/serializer.py [_is_included]. *)
From Verif Require Export Query_Model KeyMap_Model.

(** [a in b] for texts *)
Fixpoint part_of (a b : list ascii) : bool := is_prefix a b || match b with [] => false | _ :: b' => part_of a b' end.
(** * Deserializer._is_included (serializer.py:18-36); objects, which have [_data], are given by it *)
Definition is_included (key : pykey) (value : pyval) (excludes only : list pykey) (no_defaults : bool) : res bool :=
  if existsb (fun k => match k, key with KStr a, KStr b => beq a b | KInt a, KInt b => Z.eqb a b | _, _ => false end) excludes then Ok false
  else if (match only with [] => false | _ => true end) &&
          negb (existsb (fun k => match k, key with KStr a, KStr b => beq a b | KInt a, KInt b => Z.eqb a b | _, _ => false end) only)
  then Ok false
  else match value with
       | VNone => Ok (negb no_defaults)                                               (* 33-35: value is None *)
       | _ =>
           let inside :=
             match key, value with
             | KStr k, VDict l => Ok (dmem k l)                                       (* 27-28 *)
             | KStr k, (VList l | VTup l) => Ok (mem (VStr k) l)
             | KStr k, VStr s => Ok (part_of (chars k) (chars s))
             | KInt z, (VList l | VTup l) => Ok (Z.ltb z (Z.of_nat (length l)))       (* 30-31 *)
             | KInt z, VDict l => Ok (Z.ltb z (Z.of_nat (length l)))
             | KInt z, VStr s => Ok (Z.ltb z (Z.of_nat (String.length s)))
             | _, _ => Err TypeError
             end in
           do i <- inside;
           if i then do v <- getitem value key; Ok (if no_defaults then negb (beq v VNone) else true) else Ok false
       end.

(** * Array *)
Record array_cfg := { a_min : nat; a_many : bool; a_split : bool; a_delim : list ascii; a_default : list pyval }.
(** per-call options: [split_string], [strDelimiter], [many] *)
Record array_opts := { o_split : option bool; o_delim : option (list ascii); o_many : option bool }.
Definition no_opts := {| o_split := None; o_delim := None; o_many := None |}.
Definition opt_or {A} (o : option A) (d : A) : A := match o with Some x => x | None => d end.

Definition is_str (v : pyval) : bool := match v with VStr _ => true | _ => false end.

(** [value.split(d)]: an empty separator raises *)
Definition py_split (d s : list ascii) : res (list (list ascii)) :=
  match d with [] => Err ValueError | _ => Ok (split_on d s) end.

(** array.py:39-55, [value] being [value or default] (collection.py:77) *)
Definition array_deserialize0 (c : array_cfg) (o : array_opts) (value : pyval) : res (list pyval) :=
  do l <- match value with
          | VStr s =>
              if opt_or (o_split o) (a_split c)
              then do ws <- py_split (opt_or (o_delim o) (a_delim c)) (chars s);
                   Ok (map (fun w => VStr (unchars (strip whitespace w))) ws)
              else Ok [value]
          | VList l | VTup l => Ok l
          | _ => Ok [value]
          end;
  if (1 <? length l) && negb (opt_or (o_many o) (a_many c)) then Err ConversionError
  else Ok (l ++ repeat VNone (a_min c - length l)).
(** types/collection.py:76-83 (without item conversion, [items] false) *)
Definition array_deserialize (c : array_cfg) (o : array_opts) (value : pyval) : res (list pyval) :=
  array_deserialize0 c o (if truthy value then value else VList (a_default c)).

(** array.py:83-89 with [as_string]: joining with the delimiter; strings serialise to themselves *)
Definition array_as_string (c : array_cfg) (l : list (list ascii)) : list ascii := ljoin (a_delim c) l.

(** ** validation *)
Section Validate.
  (** [js_errors schema v]: the JSON-schema library reports an error; [item_validate t v]: validation of an item *)
  Variable js_errors : list (string * pyval) -> pyval -> bool.
  Variable item_validate : nat -> pyval -> res pyval.

  (** array.py:181-187 and :57-64, collection.py:95-103, validator.py:47-68. [items]: the item types, one for all or a
      list. Line 62 builds a ValidationError and does not raise it; [hash] raises on unhashable items. *)
  Inductive items_cfg := OneType (t : nat) | TypeList (ts : list nat).
  Definition items_types (i : items_cfg) (n : nat) : list nat :=                                        (* array.py:124-127 *)
    match i with OneType t => repeat t n | TypeList ts => firstn n ts end.
  Fixpoint validate_items (ts : list nat) (l : list pyval) : res (list pyval) :=
    match ts, l with
    | t :: ts', v :: l' =>
        do v' <- (match v with VNone => Ok VNone | _ => item_validate t v end);
        do r <- validate_items ts' l'; Ok (v' :: r)
    | _, _ => Ok l
    end.
  Definition array_excludes : list string := ["minItems"; "maxItems"; "uniqueItems"; "items"]%string.
  Definition array_validate (schema : list (string * pyval)) (unique : bool) (items : items_cfg) (l : list pyval) : res (list pyval) :=
    if js_errors (filter (fun kv => negb (mem (fst kv) array_excludes)) schema) (VList l) then Err InvalidValue
    else if unique && negb (forallb hashable l) then Err TypeError
    else validate_items (items_types items (length l)) l.
End Validate.

(** * Enum._convert (type.py:100-119) *)
(** Integer.check(value, convert=True) and Integer.convert (numerics.py:49-51, converter.py:19-30): booleans are integers *)
Definition to_integer (v : pyval) : option Z :=
  match v with
  | VBool b => Some (if b then 1 else 0)%Z
  | VInt z => Some z
  | VStr s => parse_int (chars s)
  | _ => None
  end.
(** [i in enum] for an integer *)
Definition num_of (v : pyval) : option Z := match v with VBool b => Some (if b then 1 else 0)%Z | VInt z => Some z | _ => None end.
Definition enum_has_int (i : Z) (enum : list pyval) : bool :=
  existsb (fun x => match num_of x with Some j => Z.eqb i j | None => false end) enum.
(** simplification: strings that are templates or expressions (converted first, type.py:74-77) are not covered *)
Definition enum_convert (enum : list pyval) (value : pyval) : res pyval :=
  let by_int :=
    match to_integer value with
    | Some i =>
        if enum_has_int i enum then Ok (match value with VBool b => VBool b | _ => VInt i end)   (* 111-112 *)
        else if Z.ltb (Z.of_nat (length enum)) i then Err ConversionError                        (* 113-114 *)
        else py_index enum i                                                                     (* 115 *)
    | None =>
        match value with
        | VStr s => if beq s EmptyString then py_index enum 0 else Err ConversionError           (* 117-119 *)
        | _ => Err UnboundLocalError                                                             (* 117: s unbound *)
        end
    end in
  match value with
  | VStr s => if mem value enum then Ok value else by_int                                        (* 105-108 *)
  | _ => by_int
  end.

(** * Boolean._convert (boolean.py:28-56) *)
Definition bool_trues : list string := ["true"%string].      (* settings.py:106 *)
Definition bool_falses : list string := ["false"%string].    (* settings.py:107 *)
Definition boolean_convert (value : pyval) : res bool :=
  match value with
  | VBool b => Ok b
  | VStr s =>
      let l := str_lower s in
      if mem l bool_trues then Ok true else if mem l bool_falses then Ok false else Err ConversionError
  | VInt z => if (Z.eqb z 0 || Z.eqb z 1)%bool then Ok (negb (Z.eqb z 0)) else Err ConversionError
  | _ => Err ConversionError
  end.
