(** Specification vocabulary for types by name (C78) and schemas holding types (C79). *)
From Verif Require Import PyVal Tn_Model.
Local Open Scope list_scope.

(** * C78: which Python values a name stands for *)
Definition Scalar (v : pyval) : Prop := match v with VList _ | VTup _ | VDict _ => False | _ => True end.
Inductive Named : string -> pyval -> Prop :=
| N_true v : Named "true" v
| N_enum v : Scalar v -> truthy v = true -> Named "enum" v
| N_boolean b : Named "boolean" (VBool b)
| N_number z : Named "number" (VInt z)
| N_number_bool b : Named "number" (VBool b)
| N_integer z : Named "integer" (VInt z)
| N_integer_bool b : Named "integer" (VBool b)
| N_string s : Named "string" (VStr s)
| N_array l : Named "array" (VList l)
| N_array_tuple l : Named "array" (VTup l)
| N_array_text s : Named "array" (VStr s)
| N_tuple l : Named "tuple" (VTup l)
| N_tuple_list l : Named "tuple" (VList l)
| N_tuple_text s : Named "tuple" (VStr s)
| N_set_list l : Named "set" (VList l)
| N_set_tuple l : Named "set" (VTup l)
| N_object d : Named "object" (VDict d).
Definition known : list string :=
  ["null"; "true"; "false"; "enum"; "boolean"; "number"; "integer"; "string"; "array"; "tuple"; "set"; "object"]%string.

(** * C79 *)
(** [At s p v]: following the keys [p] through mappings leads from [s] to [v] *)
Inductive At : js -> list string -> js -> Prop :=
| At_here v : At v [] v
| At_key m k x p v : In (k, x) m -> At x p v -> At (JMap m) (k :: p) v.
(** no type at any place reached through mappings *)
Definition TypeFree (s : js) : Prop := forall p n id x, ~ At s p (JType n id x).
