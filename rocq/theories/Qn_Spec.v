(** Where a name is defined, and what it is called. *)
From Verif Require Import Base Qn_Model.
Local Open Scope string_scope. Local Open Scope list_scope.

(** in the nodes [ns], found in the scopes [pre], the definition that starts at [line] is called [path] *)
Inductive Defines : list string -> list node -> nat -> list string -> Prop :=
| def_fun pre ns n l b : In (Fun n l b) ns -> Defines pre ns l (pre ++ [n])
| def_cls pre ns n l b : In (Cls n l b) ns -> Defines pre ns l (pre ++ [n])
| def_in_fun pre ns n l0 b l p : In (Fun n l0 b) ns -> Defines (pre ++ [n; "<locals>"]) b l p -> Defines pre ns l p
| def_in_cls pre ns n l0 b l p : In (Cls n l0 b) ns -> Defines (pre ++ [n]) b l p -> Defines pre ns l p
| def_in_oth pre ns b l p : In (Oth b) ns -> Defines pre b l p -> Defines pre ns l p.

(** line [k] belongs to the definition that starts at line [l]: one of its decorators, or the first line after them *)
Definition Belongs (lines : list bool) (l k : nat) : Prop := l <= k /\ forall j, l <= j < k -> nth_error lines (j - 1) = Some true.
(** a source as Python accepts it: decorators are followed by a line, and no two definitions share one *)
Definition Proper (lines : list bool) (source : list node) : Prop :=
  (forall l p, Defines [] source l p -> exists d, 1 <= l <= d /\ Belongs lines l d /\ nth_error lines (d - 1) = Some false) /\
  (forall l p l' p' k, Defines [] source l p -> Defines [] source l' p' -> Belongs lines l k -> Belongs lines l' k -> p = p').
