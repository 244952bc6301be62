(** Specifications: subsequences, C3 merge as a relation, dependency cycles. *)
From Coq Require Export Relations.
From Verif Require Export Order_Model.

Section Spec.
  Context {A : Type}.

  (** [s] can be obtained from [l] by deleting elements. *)
  Inductive Subseq : list A -> list A -> Prop :=
  | SS_nil l : Subseq [] l
  | SS_take x s l : Subseq s l -> Subseq (x :: s) (x :: l)
  | SS_skip x s l : Subseq s l -> Subseq s (x :: l).

  (** [l] is a linear order compatible with all the sequences. *)
  Definition Compatible (seqs : list (list A)) (l : list A) : Prop :=
    NoDup l /\ forall s, In s seqs -> Subseq s l.

  (** the C3 rule: repeatedly take the head of the earliest sequence that is not in the tail of any sequence *)
  Inductive C3Merge : list (list A) -> list A -> Prop :=
  | C3_done seqs : (forall s, In s seqs -> s = []) -> C3Merge seqs []
  | C3_take seqs pre c t post seqs' l :
      seqs = pre ++ (c :: t) :: post ->
      (forall s, In s seqs -> ~ In c (tl s)) ->
      (forall c' t', In (c' :: t') pre -> exists s, In s seqs /\ In c' (tl s)) ->
      Forall2 (fun s s' => s = c :: s' \/ (s = s' /\ forall t0, s <> c :: t0)) seqs seqs' ->
      C3Merge seqs' l -> C3Merge seqs (c :: l).

  (** Dependency relation of a table: [x] depends on another item [y]. *)
  Definition Dep (d : list (A * list A)) (x y : A) : Prop := (exists s, In (x, s) d /\ In y s) /\ y <> x.
  (** Everything mentioned by the table. *)
  Definition Node (d : list (A * list A)) (x : A) : Prop := In x (map fst d) \/ exists z s, In (z, s) d /\ In x s.
  (** [x] depends, directly or not, on itself. *)
  Definition Cyclic (d : list (A * list A)) (x : A) : Prop := clos_trans A (Dep d) x x.
  Definition DependsOnCycle (d : list (A * list A)) (x : A) : Prop :=
    exists y, clos_refl_trans A (Dep d) x y /\ Cyclic d y.
End Spec.
