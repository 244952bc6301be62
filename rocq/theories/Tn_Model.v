(** Types by name: ngoschema/managers/type_builder.py: untype_schema 18-30, register_type 38-50, is_type 50-55, detect_type 57-60, get_type
    62-63; the checks of the registered types: ngoschema/types/constants.py 21-70, type.py 44-52 and 96-100, boolean.py 22-23,
    numerics.py 43-46 and 54-56, strings.py 21-27, array.py 171-179 and 212-221, object.py 51-56; protocols/checker.py 16-24, validator.py
    90-102. *)
From Verif Require Export PyVal.
Local Open Scope string_scope.
Local Open Scope list_scope.

(** * Checks, called on the classes without options *)
(** checker.py:16-24 with [isinstance] *)
Definition is_int (v : pyval) : bool := match v with VInt _ | VBool _ => true | _ => false end.   (* bool is a subclass of int *)
Definition is_bool (v : pyval) : bool := match v with VBool _ => true | _ => false end.
Definition is_str (v : pyval) : bool := match v with VStr _ => true | _ => false end.
(** constants.py:21-25, for the [_pyType] None, True, False *)
Definition check_constant (py : option bool) (v : pyval) : bool := match py with Some true => true | _ => false end.
(** type.py:44-50 without [_pyType] *)
Definition check_primitive (v : pyval) : res pyval :=
  if (is_mapping v || is_sequence v) && negb (is_str v) then Err TypeError else Ok v.
(** type.py:96-100: the class has no values of its own, and what the inner check returns is the value, which may be false *)
Definition check_enum (v : pyval) : bool := match check_primitive v with Ok w => truthy w | Err _ => false end.
(** array.py:171-179: a text is converted by the class first; [py_set]: to a set, which is no sequence *)
Definition check_array (py_set : bool) (v : pyval) : bool :=
  if is_str v then negb py_set else is_sequence v.
(** object.py:51-56 *)
Definition check_object (v : pyval) : bool := is_mapping v.

(** * The registry of names *)
(** a class is known by what it checks (validator.py:90-102: an exception means False) *)
Definition tclass := pyval -> bool.
Definition tregistry := dict string tclass.
(** 38-47: an entry of a dictionary: a name already there keeps its place *)
Definition register_type (n : string) (t : tclass) (r : tregistry) : tregistry := dset n t r.
(** 50-55; [UserError 1]: UndefinedTypeCheck of jsonschema *)
Definition is_type (r : tregistry) (v : pyval) (n : string) : res bool :=
  match dget n r with None => Err (UserError 1) | Some t => Ok (t v) end.
(** 57-60: without a hit the function ends without return: None *)
Definition detect_type (r : tregistry) (v : pyval) : option (string * tclass) := find (fun kt => snd kt v) r.
Definition get_type (r : tregistry) (n : string) : res tclass := match dget n r with None => Err KeyError | Some t => Ok t end.

(** the names the library registers when it is loaded, in the order of the modules: constants.py comes first, because types/__init__.py
    imports it before all others. Not modelled: what the types of [others] (dates, symbols, identifiers, …) check. *)
Definition library (others : tregistry) : tregistry :=
  [("null", check_constant None); ("true", check_constant (Some true)); ("false", check_constant (Some false)); ("enum", check_enum);
   ("boolean", is_bool); ("number", is_int); ("integer", is_int); ("string", is_str);
   ("array", check_array false); ("tuple", check_array false); ("set", check_array true); ("object", check_object)] ++ others.

(** * [untype_schema] (18-30) *)
(** A schema as a program gives it: plain values, lists, mappings, and types: instances of classes of types or such classes
    themselves, with the attribute [_id] if any and what [repr_schema] gives. Instances of classes of objects are instances of
    TypeProtocol too. *)
Inductive js :=
| JVal (v : pyval)
| JList (l : list js)
| JMap (m : list (string * js))
| JType (n : nat) (id : option string) (schema : js).
(** 24-27 *)
Definition untyped (id : option string) (schema : js) : js :=
  match id with Some i => JMap [("$ref", JVal (VStr i))] | None => schema end.
(** 28-29 and the loop: one value of a mapping *)
Fixpoint untype_value (v : js) : js :=
  match v with
  | JType _ id s => untyped id s
  | JMap m => JMap ((fix go m := match m with [] => [] | (k, x) :: m' => (k, untype_value x) :: go m' end) m)
  | _ => v
  end.
(** 18-30: [dict(schema)] raises TypeError when the argument is no mapping (lists of pairs are left out) *)
Definition untype_schema (s : js) : res js := match s with JMap m => Ok (untype_value (JMap m)) | _ => Err TypeError end.
