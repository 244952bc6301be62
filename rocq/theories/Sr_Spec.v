(** What a user sees of sessions and repositories. *)
From Verif Require Import Base Sr_Model.

(** repository [r] is bound to session [s]; session [s] lists repository [r] *)
Definition BoundTo (w : world) (r s : nat) : Prop := exists x, nth_error (w_repos w) r = Some x /\ r_session x = s.
Definition Lists (w : world) (s r : nat) : Prop := In r (nth s (w_sess w) []).
Definition ClassOf (w : world) (r : nat) (c : string) : Prop := exists x, nth_error (w_repos w) r = Some x /\ r_class x = c.
(** the operations name sessions and repositories that exist *)
Fixpoint Valid (live : nat -> bool) (registry : dict string string) (w : world) (ops : list op) : Prop :=
  match ops with
  | [] => True
  | o :: ops' =>
      match o with
      | NewSession => True
      | Make _ m s => (forall n, m = Some n -> n < length (w_sess w)) /\ (forall n, s = Some n -> n < length (w_sess w))
      | Bind s r => s < length (w_sess w) /\ r < length (w_repos w)
      | GetOrCreate s _ => s < length (w_sess w)
      | LoadFile _ s => forall n, s = Some n -> n < length (w_sess w)
      end /\ Valid live registry (step live registry w o) ops'
  end.
(** there is a default session, sessions list repositories that were made, and the session a repository is bound to lists it *)
Definition Sound (w : world) : Prop := 0 < length (w_sess w) /\ (forall s r, Lists w s r -> r < length (w_repos w)) /\
  (forall r s, BoundTo w r s -> Lists w s r).
