(** What the data of a new object should be. *)
From Verif Require Export New_Model.
From Verif Require Import Alias_Spec.

(** the tables of a class are dictionaries and sets, and the names do not interfere *)
Record Proper (c : ncls) : Prop := {
  pr_names : Separate (nc_names c);
  pr_props : NoDup (nm_props (nc_names c));
  pr_plain : forall p, In p (nm_props (nc_names c)) -> ~ other_name (nc_names c) p;
  pr_defaults : dwf (nc_defaults c);
  pr_declared : forall k, In k (dkeys (nc_defaults c)) -> In k (nm_props (nc_names c));
  pr_deps : dwf (nc_deps c)
}.
(** the value of the property [p] of an object of which the dictionary [d] is given; nothing when it has no such item *)
Inductive Member (c : ncls) (d : dict string pyval) (p : string) : option pyval -> Prop :=
| mb_given v : Gives (nc_names c) d p v -> Member c d p (Some v)
| mb_default v : (forall v, ~ Gives (nc_names c) d p v) -> dget p (nc_defaults c) = Some (Ok v) -> Member c d p (Some v)
| mb_null : (forall v, ~ Gives (nc_names c) d p v) -> In p (nm_props (nc_names c)) -> ~ In p (dkeys (nc_defaults c)) -> Member c d p (Some VNone)
| mb_none : (forall v, ~ Gives (nc_names c) d p v) -> ~ In p (nm_props (nc_names c)) -> Member c d p None.

(** what the operations on the object number [i] do to its items *)
Definition own_step (i : nat) (d : dict string pyval) (o : op) : dict string pyval :=
  match o with
  | OSet j k v => if Nat.eqb i j then dset k v d else d
  | ODel j k => if Nat.eqb i j then ddel k d else d
  | ONew _ _ _ _ => d
  end.
Definition own_run (i : nat) (ops : list op) (d : dict string pyval) : dict string pyval := fold_left (own_step i) ops d.
