(** What a name should refer to, whatever has been looked up before. *)
From Verif Require Import Nc_Model.

(** [Refers n name raw]: for a class with the names [n], the item [name] is the item [raw] *)
Inductive Refers (n : names) (name : string) : string -> Prop :=
| ref_property : In name (nm_props n) -> Refers n name name
| ref_translated t raw : ~ In name (nm_props n) -> In (t, raw) (nm_trans n) -> name = t \/ name = raw ->
    (forall t' raw', In (t', raw') (nm_trans n) -> name = t' \/ name = raw' -> raw' = raw) -> Refers n name raw
| ref_alias raw : ~ In name (nm_props n) -> (forall t raw', In (t, raw') (nm_trans n) -> name <> t /\ name <> raw') ->
    dget name (nm_alias n) = Some raw -> Refers n name raw
| ref_negated raw : ~ In name (nm_props n) -> (forall t raw', In (t, raw') (nm_trans n) -> name <> t /\ name <> raw') ->
    dget name (nm_alias n) = None -> dget name (nm_neg n) = Some raw -> Refers n name raw
| ref_additional : ~ In name (nm_props n) -> (forall t raw', In (t, raw') (nm_trans n) -> name <> t /\ name <> raw') ->
    dget name (nm_alias n) = None -> dget name (nm_neg n) = None -> nm_additional n = true -> Refers n name name.

Section Spec.
  Variable w : classes.
  (** two classes with a class in common among themselves and those they inherit from, ObjectProtocol apart *)
  Definition Related (c c' : nat) : Prop := exists k, (k = c \/ In k (cl_bases w c)) /\ (k = c' \/ In k (cl_bases w c')).
  (** single inheritance: a class inherits from whatever follows one of its bases *)
  Definition SingleInheritance : Prop := forall c pre x o post, cl_bases w c = pre ++ x :: post -> In o post -> In o (cl_bases w x).
  (** what the class makes of the name the first time it is asked *)
  Definition Alone (c : nat) (name : string) : option (string * string) := raw_trans (cl_names w c) name.
End Spec.
