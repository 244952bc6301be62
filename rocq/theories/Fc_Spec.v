(** What is meant by the theorems of Fc_Props. *)
From Verif Require Import Base PyVal Fc_Model.
Local Open Scope list_scope.

(** the keys of a key: those declared, or else [default] *)
Definition Keys (d : decl) (default ks : list string) : Prop := d_keys d = Some ks \/ (d_keys d = None /\ ks = default).
(** the types a class (or stand-in) gives to keys, in order *)
Definition Typed (f : string -> res ktype) (ks : list string) (ts : list ktype) : Prop := Forall2 (fun k t => f k = Ok t) ks ts.
(** one of them has no type *)
Definition Untyped (f : string -> res ktype) (ks : list string) : Prop := exists k e, In k ks /\ f k = Err e.
(** nothing but changes of the schema *)
Definition NoUse (h : list event) : Prop := ~ In Use h.
(** a key with this class, these keys and types *)
Definition Is (f : fkey) (c : fclass) (ks : list string) (ts : list ktype) : Prop := f_class f = Some c /\ f_keys f = ks /\ f_types f = ts.
(** ... now and for ever *)
Definition Stays (d : decl) (f : fkey) (c : fclass) (ks : list string) (ts : list ktype) : Prop :=
  forall st h, Is (fst (after d (f, st) h)) c ks ts.
