(** C12: the thread-safe counter. *)
From Verif Require Import Counter_Model Counter_Proofs.
From Coq Require Import Sorted.

(** whatever the schedule, the values returned are init, init+1, ... in order of return *)
Theorem counter_values_consecutive : forall (init : Z) (sched : list nat),
  let got := c_returned (counter_run init sched) in
  map snd got = map (fun k => (init + Z.of_nat k)%Z) (seq 0 (length got)).
Proof. intros init sched. exact (proj1 (CInv_run init sched)). Qed.
Print Assumptions counter_values_consecutive.

Theorem counter_values_distinct : forall (init : Z) (sched : list nat), NoDup (map snd (c_returned (counter_run init sched))).
Proof.
  intros init sched. rewrite (proj1 (CInv_run init sched)). apply FinFun.Injective_map_NoDup; [|apply seq_NoDup].
  intros x y e. lia.
Qed.
Print Assumptions counter_values_distinct.

(** each thread sees increasing values *)
Theorem counter_thread_increasing : forall (init : Z) (sched : list nat) (t : nat),
  StronglySorted Z.lt (map snd (filter (fun p => Nat.eqb (fst p) t) (c_returned (counter_run init sched)))).
Proof.
  intros init sched t. apply sorted_filter. rewrite (proj1 (CInv_run init sched)). apply consecutive_sorted.
Qed.
Print Assumptions counter_thread_increasing.

(** at most one thread is between acquire and release *)
Theorem counter_mutual_exclusion : forall (init : Z) (sched : list nat) (t1 t2 : nat),
  c_pcs (counter_run init sched) t1 <> PIdle -> c_pcs (counter_run init sched) t2 <> PIdle -> t1 = t2.
Proof.
  intros init sched t1 t2 h1 h2. destruct (CInv_run init sched) as (_ & _ & own & _). apply own in h1, h2. congruence.
Qed.
Print Assumptions counter_mutual_exclusion.

(** no deadlock: a free lock is taken by whoever runs next, and a holder returns a value within three of its steps *)
Theorem counter_no_deadlock : forall (init : Z) (sched : list nat),
  let s := counter_run init sched in
  match c_lock s with
  | Some t => length (c_returned (counter_step (counter_step (counter_step s t) t) t)) > length (c_returned s)
  | None => forall t, c_lock (counter_step s t) = Some t
  end.
Proof. exact counter_progress. Qed.
Print Assumptions counter_no_deadlock.

Example counter_ex : c_returned (counter_run 5 [0; 1; 0; 1; 0; 2; 0; 2; 1; 2; 2; 2; 1; 1; 1; 1]) = [(0, 5%Z); (2, 6%Z); (1, 7%Z)].
Proof. reflexivity. Qed.
