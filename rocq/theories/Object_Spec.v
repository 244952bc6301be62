(** Vocabulary for orders and validation of objects. *)
From Verif Require Import Object_Model Order_Spec.

(** [Before a b l]: [a] occurs in [l] ahead of [b] *)
Definition Before {A} (a b : A) (l : list A) : Prop := exists l1 l2 l3, l = l1 ++ a :: l2 ++ b :: l3.
