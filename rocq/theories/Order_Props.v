(** C07 (mro), C08 (gcs), C09 (topological_sort). *)
From Verif Require Import Order_Model Order_Spec Order_Proofs Topo_Proofs.

(** C07: a successful mro is a C3 linearisation. *)
Theorem mro_is_c3_linearisation : forall (A : Type) (EA : EqDec A) (lin : A -> list A) bases l,
  mro lin bases = Ok l ->
  C3Merge (map lin bases ++ [bases]) l /\ NoDup l /\
  (forall x, In x l <-> In x bases \/ exists b, In b bases /\ In x (lin b)) /\
  Subseq bases l /\ (forall b, In b bases -> Subseq (lin b) l).
Proof. intros A EA. exact mro_ok. Qed.
Print Assumptions mro_is_c3_linearisation.

(** mro always ends, either with a result or with TypeError. *)
Theorem mro_terminates : forall (A : Type) (EA : EqDec A) (lin : A -> list A) bases,
  (exists l, mro lin bases = Ok l) \/ mro lin bases = Err TypeError.
Proof. intros A EA. exact mro_total. Qed.
Print Assumptions mro_terminates.

(** TypeError exactly when no linear order at all is compatible with the inputs. *)
Theorem mro_fails_iff_inconsistent : forall (A : Type) (EA : EqDec A) (lin : A -> list A) bases,
  mro lin bases = Err TypeError <-> ~ exists l, Compatible (map lin bases ++ [bases]) l.
Proof. intros A EA. exact mro_fails_iff. Qed.
Print Assumptions mro_fails_iff_inconsistent.

(** the C3 rule leaves no choice *)
Theorem mro_c3_unique : forall (A : Type) (EA : EqDec A) (lin : A -> list A) bases l,
  mro lin bases = Ok l -> forall l', C3Merge (map lin bases ++ [bases]) l' -> l' = l.
Proof. intros A EA lin bases l h l' h'. exact (eq_sym (C3Merge_det _ _ (proj1 (mro_ok lin bases l h)) l' h')). Qed.
Print Assumptions mro_c3_unique.

Theorem mro_of_one_class : forall (A : Type) (EA : EqDec A) (lin : A -> list A) b t,
  lin b = b :: t -> NoDup (lin b) -> mro lin [b] = Ok (lin b).
Proof. intros A EA. exact mro_single. Qed.
Print Assumptions mro_of_one_class.

(** the classical diamond: D(B, C), B(A), C(A); and an inconsistent pair *)
Definition ex_lin (n : nat) : list nat :=
  match n with 1 => [1; 0] | 2 => [2; 1; 0] | 3 => [3; 1; 0] | 4 => [4; 2; 3; 1; 0] | 5 => [5; 3; 2; 1; 0] | _ => [0] end.
Example mro_diamond : mro ex_lin [2; 3] = Ok [2; 3; 1; 0].
Proof. vm_compute. reflexivity. Qed.
Example mro_inconsistent : mro ex_lin [4; 5] = Err TypeError.
Proof. vm_compute. reflexivity. Qed.

(** C08 *)
Theorem gcs_first_common : forall (A : Type) (EA : EqDec A) (lin : A -> list A) c cs,
  (forall x, gcs lin (c :: cs) = Ok (Some x) <->
     exists pre post, lin c = pre ++ x :: post /\ (forall d, In d (c :: cs) -> In x (lin d)) /\
       forall y, In y pre -> exists d, In d (c :: cs) /\ ~ In y (lin d)) /\
  (gcs lin (c :: cs) = Ok None <-> ~ exists x, forall d, In d (c :: cs) -> In x (lin d)).
Proof. intros A EA. exact gcs_spec. Qed.
Print Assumptions gcs_first_common.

Example gcs_ex : gcs ex_lin [4; 3] = Ok (Some 3) /\ gcs ex_lin [2; 3] = Ok (Some 1).
Proof. vm_compute. split; reflexivity. Qed.

(** C09: layers are disjoint, non-empty and ordered; every layer but the first is forced by the one before. *)
Theorem topological_sort_layers : forall (A : Type) (EA : EqDec A) (d : dict A (list A)), dwf d ->
  NoDup (concat (fst (topological_sort d))) /\
  (forall l, In l (fst (topological_sort d)) -> l <> []) /\
  (forall pre l post x y, fst (topological_sort d) = pre ++ l :: post -> In x l -> Dep d x y -> In y (concat pre)) /\
  (forall pre l0 l post x, fst (topological_sort d) = pre ++ l0 :: l :: post -> In x l -> exists y, In y l0 /\ Dep d x y).
Proof. intros A EA. exact topo_layers. Qed.
Print Assumptions topological_sort_layers.

(** the yielded items are exactly those mentioned that do not depend on a cycle *)
Theorem topological_sort_yields : forall (A : Type) (EA : EqDec A) (d : dict A (list A)), dwf d -> forall x,
  In x (concat (fst (topological_sort d))) <-> Node d x /\ ~ DependsOnCycle d x.
Proof. intros A EA. exact topo_yields_iff. Qed.
Print Assumptions topological_sort_yields.

(** it ends normally iff there is no cycle, with AssertionError iff there is one *)
Theorem topological_sort_detects_cycles : forall (A : Type) (EA : EqDec A) (d : dict A (list A)), dwf d ->
  (snd (topological_sort d) = Ok tt <-> ~ exists x, Cyclic d x) /\
  (snd (topological_sort d) = Err AssertionError <-> exists x, Cyclic d x).
Proof. intros A EA. exact topo_ok_iff. Qed.
Print Assumptions topological_sort_detects_cycles.

Theorem topological_sort_terminates : forall (A : Type) (EA : EqDec A) (d : dict A (list A)),
  snd (topological_sort d) = Ok tt \/ snd (topological_sort d) = Err AssertionError.
Proof. intros A EA. exact topo_outcome. Qed.
Print Assumptions topological_sort_terminates.

Definition ex_deps : dict nat (list nat) := [(1, [2; 3; 1]); (2, [3]); (4, []); (5, [1; 4; 6])].
Example topo_ex : dwf ex_deps /\ topological_sort ex_deps = ([[4; 3; 6]; [2]; [1]; [5]], Ok tt).
Proof. split; [unfold dwf; simpl; repeat constructor; simpl; intuition discriminate|vm_compute; reflexivity]. Qed.
Example topo_cycle_ex : topological_sort [(1, [2]); (2, [1]); (3, [4]); (5, [1])] = ([[4]; [3]], Err AssertionError).
Proof. vm_compute. reflexivity. Qed.
