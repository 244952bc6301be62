(** Vocabulary for arrays, enumerations and booleans. *)
From Verif Require Import Types_Model.

(** [Spells s w]: [s] is the lower-case word [w] up to the case of letters *)
Inductive Spells : string -> string -> Prop :=
| Sp_nil : Spells EmptyString EmptyString
| Sp_same c s w : (nat_of_ascii c < 65 \/ 90 < nat_of_ascii c) -> Spells s w -> Spells (String c s) (String c w)
| Sp_upper c d s w : 65 <= nat_of_ascii c <= 90 -> nat_of_ascii d = nat_of_ascii c + 32 -> Spells s w -> Spells (String c s) (String d w).

(** equality of enumeration members as Python sees it: booleans are the integers 0 and 1 *)
Definition py_same (a b : pyval) : Prop :=
  a = b \/ exists i, num_of a = Some i /\ num_of b = Some i.
Definition Member (v : pyval) (enum : list pyval) : Prop := exists x, In x enum /\ py_same v x.

(** no white space at either end *)
Definition trimmed (w : list ascii) : Prop :=
  (forall x r, w = x :: r -> ~ In x whitespace) /\ (forall r x, w = r ++ [x] -> ~ In x whitespace).
