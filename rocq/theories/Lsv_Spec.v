(** Loading, saving and committing, in words. *)
From Verif Require Import Base PyVal Lsv_Model.
Local Open Scope list_scope.

(** one value is loaded: deserialised, then given to the class *)
Inductive LoadsTo (deser : pyval -> res pyval) (inst : option (pyval -> res pyval)) (v w : pyval) : Prop :=
| L_plain : inst = None -> deser v = Ok w -> LoadsTo deser inst v w
| L_class f d : inst = Some f -> deser v = Ok d -> f d = Ok w -> LoadsTo deser inst v w.

(** what a value holds: the values to load when several are wanted *)
Inductive Holds : pyval -> list pyval -> Prop :=
| H_list l : Holds (VList l) l
| H_tuple l : Holds (VTup l) l
| H_nothing v : truthy v = false -> Holds v []
| H_one v : truthy v = true -> (forall l, v <> VList l) -> (forall l, v <> VTup l) -> (forall s, v <> VStr s) -> Holds v [v].
