(** Specification vocabulary for the types of the items of an object (C77). *)
From Verif Require Import Base It_Model.
Local Open Scope list_scope.

(** [Declared c k d]: the class gives the name [k] the type [d]: as a property, by the first pattern that [k] matches, or as an
    additional property *)
Inductive Declared (c : ocls) (k : string) : ty -> Prop :=
| D_property d : In (k, d) (oc_props c) -> Declared c k d
| D_pattern l1 f d l2 : (forall d', ~ In (k, d') (oc_props c)) -> oc_patterns c = l1 ++ (f, d) :: l2 -> f k = true ->
    (forall g e, In (g, e) l1 -> g k = false) -> Declared c k d
| D_additional : (forall d', ~ In (k, d') (oc_props c)) -> (forall f d, In (f, d) (oc_patterns c) -> f k = false) ->
    ty_truth (oc_additional c) = true -> Declared c k (oc_additional c).

(** [Stands d p h]: the type that [d] stands for after the history [h]: itself, unless it is a stand-in for a type built since *)
Inductive Stands (h : list event) : ty -> ty -> Prop :=
| St_itself d : ty_stand d = None -> Stands h d d
| St_waits d u : ty_stand d = Some u -> (forall p, ~ In (Register u p) h) -> Stands h d d
| St_built d u p : ty_stand d = Some u -> In (Register u p) h -> Stands h d p.

(** the name that a name means: itself, unless it is a negated alias *)
Inductive Target (c : ocls) (k : string) : string -> Prop :=
| T_itself : (forall i, ~ In (k, i) (oc_negated c)) -> Target c k k
| T_negated i : In (k, i) (oc_negated c) -> Target c k i.

(** histories in which each type is built once, and what is built is a type that stands for itself *)
Definition Regular (h : list event) : Prop :=
  (forall u p q, In (Register u p) h -> In (Register u q) h -> p = q) /\
  (forall u p, In (Register u p) h -> ty_stand p = None /\ ty_truth p = true).
(** a negated alias means no other alias; stand-ins are true *)
Definition Sound (c : ocls) : Prop :=
  dwf (oc_props c) /\ dwf (oc_negated c) /\ (forall a b i, In (a, b) (oc_negated c) -> ~ In (b, i) (oc_negated c)) /\
  (forall k d, Declared c k d -> ty_stand d <> None -> ty_truth d = true).
