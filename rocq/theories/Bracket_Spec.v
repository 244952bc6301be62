From Verif Require Export Bracket_Model.
Section Spec.
  Context {A : Type}.
  Variables br cbr : A.

  (** Balanced texts *)
  Inductive Bal : list A -> Prop :=
  | B_nil : Bal []
  | B_other c s : c <> br -> c <> cbr -> Bal s -> Bal (c :: s)
  | B_wrap s1 s2 : Bal s1 -> Bal s2 -> Bal (br :: s1 ++ cbr :: s2).

  (** positions [i] and [j] of [t] are a matching pair *)
  Definition Matched (t : list A) (i j : nat) : Prop :=
    exists a b c, t = a ++ br :: b ++ cbr :: c /\ Bal b /\ i = length a /\ j = length a + 1 + length b.

  Definition occurrences {E : EqDec A} (x : A) (t : list A) : nat := length (filter (fun y => beq x y) t).
  (** some prefix has more closing than opening brackets *)
  Definition Overclosed {E : EqDec A} (t : list A) : Prop :=
    exists p q, t = p ++ q /\ occurrences br p < occurrences cbr p.
  (** no bracket character *)
  Definition BracketFree (t : list A) : Prop := ~ In br t /\ ~ In cbr t.
End Spec.
