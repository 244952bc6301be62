(** The schema a type shows: ngoschema/protocols/validator.py: Validator._repr_schema 37-42, repr_schema 44-46;
    ngoschema/types/array.py: Array._repr_schema 135-154; ngoschema/types/object.py: Object._repr_schema 175-189, and what an object type
    makes of a type given for a property: __init__ 130-135 with untype_schema (managers/type_builder.py 18-29).
    Simplifications: no pattern properties; schemas are dictionaries as lists, the order of keywords after the first is not followed. *)
From Verif Require Export Base PyVal.
Local Open Scope string_scope. Local Open Scope list_scope.

(** what stands in a schema that is shown: a plain value, a schema, a list, or a type itself instead of its schema *)
Inductive shown := SVal (v : pyval) | SSchema (m : list (string * shown)) | SListed (l : list shown) | SItself (n : nat).
Notation keywords := (list (string * shown)).

(** Types: [cls] is the schema of the class, [own] the keywords given to the instance (31: the instance reads [ReadOnlyChainMap(own, cls)]).
    [is_class] is true of a class of arrays or objects built from a schema, false of an instance of Array or Object. *)
Inductive ty :=
| TScalar (n : nat) (cls own : keywords)                              (* an instance of a scalar class: Type *)
| TConst (n : nat) (truth : bool) (cls : keywords)                    (* types/constants.py: not instances of Type *)
| TArray (n : nat) (is_class : bool) (cls own : keywords) (is_list : bool) (items : list ty)    (* one item type unless [is_list] *)
    (minI maxI : Z) (unique split : bool) (delim : string)            (* 0 stands for none: both are left out *)
| TObject (n : nat) (is_class : bool) (cls own : keywords) (required readOnly : list string) (props : list (string * ty)) (additional : bool).
Definition number (t : ty) : nat := match t with TScalar n _ _ | TConst n _ _ | TArray n _ _ _ _ _ _ _ _ _ _ | TObject n _ _ _ _ _ _ _ => n end.
(** [isinstance(i, Type)] *)
Definition is_type (t : ty) : bool :=
  match t with TScalar _ _ _ => true | TConst _ _ _ => false | TArray _ c _ _ _ _ _ _ _ _ _ => negb c | TObject _ c _ _ _ _ _ _ => negb c end.
(** the truth value of a type: that of its class method for constants (constants.py 25-27) *)
Definition truthy_type (t : ty) : bool := match t with TConst _ b _ => b | _ => true end.
(** Collection._items, the class of the constant true, is number 0 (types/collection.py:51) *)
Definition true_class : nat := 0.

Definition chain (own cls : keywords) : keywords := own ++ filter (fun p => negb (mem (fst p) (dkeys own))) cls.
(** 39-42 *)
Definition front (rs : keywords) : keywords :=
  match dget "type" rs with Some t => ("type", t) :: ddel "type" rs | None => rs end.
Definition put_if (b : bool) (k : string) (v : shown) (rs : keywords) : keywords := if b then dset k v rs else rs.
Definition names (l : list string) : shown := SListed (map (fun s => SVal (VStr s)) l).
Definition nonempty {A} (l : list A) : bool := match l with [] => false | _ => true end.

(** [show false t] is [t._repr_schema(t)], [show true t] is [t.repr_schema()], a class method: of an instance it reads the class *)
Fixpoint show (by_class : bool) (t : ty) : keywords :=
  match t with
  | TScalar _ cls own => front (if by_class then cls else chain own cls)
  | TConst _ _ cls => front cls
  | TArray _ is_class cls own is_list items minI maxI unique split delim =>
      if by_class && negb is_class then dset "items" (SItself true_class) (front cls)
      else
        let rs := front (chain own cls) in                                                              (* 137 *)
        let rsi := map (fun i => if is_type i then SSchema (show false i) else SItself (number i)) items in
        let rs := if is_list then put_if (nonempty items) "items" (SListed rsi) rs                      (* 138-140 *)
                  else match items, rsi with
                       | i :: _, r :: _ => put_if (truthy_type i) "items" r rs                          (* 138, 141-144 *)
                       | _, _ => rs
                       end in
        let rs := put_if (negb (beq minI 0%Z)) "minItems" (SVal (VInt minI)) rs in
        let rs := put_if (negb (beq maxI 0%Z)) "maxItems" (SVal (VInt maxI)) rs in
        let rs := put_if unique "uniqueItems" (SVal (VBool true)) rs in
        put_if split "strDelimiter" (SVal (VStr delim)) (put_if split "splitString" (SVal (VBool true)) rs)
  | TObject _ is_class cls own required readOnly props additional =>
      if by_class && negb is_class then dset "type" (SVal (VStr "object")) (front cls)
      else
        let rs := dset "type" (SVal (VStr "object")) (front (chain own cls)) in                         (* 177-178 *)
        let rs := put_if (nonempty required) "required" (names required) rs in
        let rs := put_if (nonempty readOnly) "readOnly" (names readOnly) rs in
        let rs := put_if (nonempty props) "properties"
                    (SSchema (map (fun p => match p with (k, t') => (k, SSchema (show true t')) end) props)) rs in      (* 183-184 *)
        put_if (negb additional) "additionalProperties" (SVal (VBool false)) rs
  end.

(** The schema of the property made of a type without identifier that is given to an object type: object.py 132-133 keeps [repr_schema()]
    and builds a type again. For an array, ArrayProtocol.build (array_protocol.py 108-116) builds a type of the items, and
    [TypeBuilder.build] (type_builder.py 83) tests ['$ref' in schema] on what is a class. *)
Definition property_schema (t : ty) : res keywords :=
  let s := show true t in
  match dget "type" s, dget "items" s with
  | Some (SVal (VStr ty)), Some (SItself _) => if beq ty "array" then Err TypeError else Ok s
  | _, _ => Ok s
  end.
