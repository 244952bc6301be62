From Verif Require Export Registry_Model.
Section Spec.
  Context {K V : Type}.
  (** [p] is [r] or one of its ancestors *)
  Inductive Ancestor (st : store K V) (r : nat) : nat -> Prop :=
  | A_self : Ancestor st r r
  | A_up p o q : Ancestor st r p -> nth_error st p = Some o -> In q (r_parents o) -> Ancestor st r q.

  (** number of ways to reach [q] from [r] following parents is at most one: two lists of intermediate
      registries leading from [r] to [q] are equal *)
  Inductive Route (st : store K V) : nat -> list nat -> nat -> Prop :=
  | R_here r : Route st r [] r
  | R_step r o i p l q : nth_error st r = Some o -> nth_error (r_parents o) i = Some p -> Route st p l q -> Route st r (i :: l) q.
  Definition TreeLike (st : store K V) (r : nat) : Prop := forall q l1 l2, Route st r l1 q -> Route st r l2 q -> l1 = l2.

  (** operations refer to registries that exist when they run; [n] = number created so far *)
  Fixpoint ValidOps (n : nat) (os : list (@reg_op K V)) : Prop :=
    match os with
    | [] => True
    | RNew ps :: os' => (forall p, In p ps -> p < n) /\ ValidOps (S n) os'
    | RReg r _ _ :: os' => r < n /\ ValidOps n os'
    end.

  (** the last registration of [k] made on a registry of which [q] is the registry itself or an ancestor *)
  Definition LastRegistered (st : store K V) (os : list (@reg_op K V)) (q : nat) (k : K) (v : V) : Prop :=
    exists os1 r os2, os = os1 ++ RReg r k v :: os2 /\ Ancestor st r q /\
      forall r' v', In (RReg r' k v') os2 -> ~ Ancestor st r' q.
End Spec.
