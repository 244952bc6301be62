(** How aliases should translate. *)
From Verif Require Import Alias_Model.

(** the opposite of a number; True counts as 1 and False as 0 *)
Inductive Opposite : pyval -> pyval -> Prop :=
| opp_int a b : (a + b = 0)%Z -> Opposite (VInt a) (VInt b)
| opp_true : Opposite (VBool true) (VInt (-1))
| opp_false : Opposite (VBool false) (VInt 0).
(** a name written under the options [only] (nothing means everything) and [excludes] *)
Definition Written (only excludes : list string) (k : string) : Prop := (only = [] \/ In k only) /\ ~ In k excludes.

Section Spec.
  Variable n : names.

  (** the names of the tables do not interfere: the translated names that are not themselves property names, the
      aliases and the negated aliases are different from each other and from every name they stand for *)
  Definition other_name (k : string) : Prop :=
    (In k (dkeys (nm_trans n)) /\ ~ In k (nm_props n)) \/ In k (dkeys (nm_alias n)) \/ In k (dkeys (nm_neg n)).
  Record Separate : Prop := {
    sep_trans : dwf (nm_trans n); sep_alias : dwf (nm_alias n); sep_neg : dwf (nm_neg n);
    sep_ta : forall k, In k (dkeys (nm_trans n)) -> ~ In k (nm_props n) -> ~ In k (dkeys (nm_alias n)) /\ ~ In k (dkeys (nm_neg n));
    sep_an : forall k, In k (dkeys (nm_alias n)) -> ~ In k (dkeys (nm_neg n));
    sep_target : forall k r, In (k, r) (nm_trans n) \/ In (k, r) (nm_alias n) \/ In (k, r) (nm_neg n) -> ~ other_name r;
    sep_inj_t : forall k1 k2 r, In (k1, r) (nm_trans n) -> In (k2, r) (nm_trans n) -> k1 = k2;
    sep_inj_a : forall k1 k2 r, In (k1, r) (nm_alias n) -> In (k2, r) (nm_alias n) -> k1 = k2;
    sep_inj_n : forall k1 k2 r, In (k1, r) (nm_neg n) -> In (k2, r) (nm_neg n) -> k1 = k2
  }.

  (** The value the mapping gives to the property [p]: that of a negated alias, with the opposite sign, before that of an
      alias, before that of its translated name, before its own. *)
  Inductive Gives (d : dict string pyval) (p : string) : pyval -> Prop :=
  | gives_neg a v w : In (a, p) (nm_neg n) -> dget a d = Some v -> Opposite v w -> Gives d p w
  | gives_alias a v : (forall b, In (b, p) (nm_neg n) -> dget b d = None) -> In (a, p) (nm_alias n) -> dget a d = Some v -> Gives d p v
  | gives_trans a v : (forall b, In (b, p) (nm_neg n) \/ In (b, p) (nm_alias n) -> dget b d = None) ->
      In (a, p) (nm_trans n) -> ~ In a (nm_props n) -> dget a d = Some v -> Gives d p v
  | gives_own v : (forall b, In (b, p) (nm_neg n) \/ In (b, p) (nm_alias n) -> dget b d = None) ->
      (forall b, In (b, p) (nm_trans n) -> ~ In b (nm_props n) -> dget b d = None) ->
      ~ other_name p -> dget p d = Some v -> Gives d p v.
End Spec.
