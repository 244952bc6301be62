(** Specification vocabulary for Cast_Props. *)
From Verif Require Import Base.
Local Open Scope list_scope.

(** a class finds the name [k] with the value [v]: in the first class of its resolution order having it *)
Definition Finds {V} (own : nat -> dict string V) (order : list nat) (k : string) (v : V) : Prop :=
  exists l1 b l2, order = l1 ++ b :: l2 /\ dget k (own b) = Some v /\ forall c, In c l1 -> ~ In k (dkeys (own c)).
Definition Lacks {V} (own : nat -> dict string V) (order : list nat) (k : string) : Prop := forall c, In c order -> ~ In k (dkeys (own c)).
Definition Private (k : string) : Prop := exists s, k = String "_"%char s.
