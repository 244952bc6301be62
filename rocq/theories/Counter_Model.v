(** ngoschema/utils/utils.py:632-646, threadsafe_counter: any number of threads calling [_next] in a loop. *)
From Verif Require Export Base.

(** Where a thread is inside [_next] (utils.py:639-644). [next(counter)] is split into a read and a write of the
    underlying number, so that without the lock the model would lose updates. *)
Inductive pc : Type :=
| PIdle                   (* outside [_next], about to call it again *)
| PAcquired               (* after line 640 *)
| PRead (v : Z)           (* line 642, the number has been read *)
| PWritten (v : Z).       (* line 642 done, value [v] to be returned; [finally] pending *)

Record cstate := { c_lock : option nat; c_count : Z; c_pcs : nat -> pc; c_returned : list (nat * Z) }.

(** utils.py:635-636 *)
Definition counter_init (init_value : Z) : cstate :=
  {| c_lock := None; c_count := init_value; c_pcs := fun _ => PIdle; c_returned := [] |}.

Definition set_pc (f : nat -> pc) (t : nat) (p : pc) : nat -> pc := fun t' => if Nat.eqb t' t then p else f t'.

(** one atomic step of thread [t]; a thread blocked on the lock does not move *)
Definition counter_step (s : cstate) (t : nat) : cstate :=
  match c_pcs s t with
  | PIdle =>                                                                                    (* 640 *)
      match c_lock s with
      | None => {| c_lock := Some t; c_count := c_count s; c_pcs := set_pc (c_pcs s) t PAcquired; c_returned := c_returned s |}
      | Some _ => s
      end
  | PAcquired =>                                                                                (* 642, read *)
      {| c_lock := c_lock s; c_count := c_count s; c_pcs := set_pc (c_pcs s) t (PRead (c_count s)); c_returned := c_returned s |}
  | PRead v =>                                                                                  (* 642, write *)
      {| c_lock := c_lock s; c_count := (v + 1)%Z; c_pcs := set_pc (c_pcs s) t (PWritten v); c_returned := c_returned s |}
  | PWritten v =>                                                                               (* 644, return *)
      {| c_lock := None; c_count := c_count s; c_pcs := set_pc (c_pcs s) t PIdle; c_returned := c_returned s ++ [(t, v)] |}
  end.

(** a schedule is the list of the threads that take the successive steps *)
Definition counter_run (init_value : Z) (sched : list nat) : cstate := fold_left counter_step sched (counter_init init_value).
