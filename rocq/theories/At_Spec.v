(** Names of properties, and what a program assigns to a property. *)
From Verif Require Import Base PyVal Alias_Model Alias_Spec At_Model.
Local Open Scope string_scope.
Local Open Scope list_scope.

(** [Means n k p neg]: the name [k] stands for the property [p], with the opposite value when [neg] *)
Inductive Means (n : names) : string -> string -> bool -> Prop :=
| M_own p : In p (nm_props n) -> Means n p p false
| M_trans t p : In (t, p) (nm_trans n) -> Means n t p false
| M_alias a p : In (a, p) (nm_alias n) -> Means n a p false
| M_neg a p : In (a, p) (nm_neg n) -> Means n a p true.

(** tables of names without ambiguity: the names they add are not names of properties, what they stand for is *)
Record Tidy (n : names) : Prop := {
  ty_sep : Separate n;
  ty_alias : forall a p, In (a, p) (nm_alias n) \/ In (a, p) (nm_neg n) -> ~ In a (nm_props n) /\ In p (nm_props n);
  ty_trans : forall t p, In (t, p) (nm_trans n) -> ~ In t (nm_props n) /\ In p (nm_props n)
}.

(** an assignment gives the property [p] the value [w] *)
Definition Assigns (n : names) (x : aop) (p : string) (w : pyval) : Prop :=
  match x with ASet k v | ISet k v => (Means n k p false /\ w = v) \/ (Means n k p true /\ Opposite v w) end.

(** nothing else in the classes is called like the property [p] of class [k]: no attribute of the classes above, no inner definition, no
    method of every object, no other property *)
Record Unhidden (clean : string -> string) (protocol : list string) (below : list klass) (k : klass) (above : list klass) (p : string) : Prop := {
  un_proto : ~ In p protocol;
  un_above : forall c, In c above -> ~ In p (dkeys (k_attrs c)) /\ ~ In (clean p) (dkeys (k_attrs c));
  un_body : p <> clean p -> forall c, In c (below ++ [k]) -> ~ In p (dkeys (k_attrs c));
  un_defs : forall c, In c (below ++ k :: above) -> ~ In (clean p) (k_defs c);
  un_props : forall q, In q (all_props (below ++ k :: above)) -> clean q = clean p -> q = p
}.

(** a name written with a leading underscore, or with two *)
Definition Private (k : string) : Prop := exists s, k = String "_" s.
Definition Dunder (k : string) : Prop := exists s, k = String "_" (String "_" s).
