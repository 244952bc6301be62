(** ngoschema/repositories/memory_repository.py: MemoryRepository.__contains__ 25-26, resolve_fkey 28-29, _commit 31-53. *)
From Verif Require Export Base.
Local Open Scope list_scope.

(** the value of a primary key (simplification: absent, an integer or a string) *)
Inductive kval := KNone | KInt (z : Z) | KStr (s : string).
#[global] Instance EqDec_kval : EqDec kval.
Proof. intros x y. unfold EqDec. decide equality; [apply Z.eq_dec|apply string_dec]. Defined.

(** Entities are mutable objects: [heap] gives the current values of the primary keys of each. [identityKeys] (instances.py:88-90)
    is the tuple of these values; that a read of it is up to date is the subject of Inst_Props. *)
Definition heap := dict nat (list kval).
Record repo := { objs : heap; catalog : dict (list kval) nat; content : list nat }.

Definition keys_of (h : heap) (o : nat) : list kval := match dget o h with Some ks => ks | None => [] end.

(** [max([-1] + iks) + 1] (41): comparing an integer with something else raises TypeError *)
Fixpoint next_key (m : Z) (iks : list kval) : res Z :=
  match iks with
  | [] => Ok (m + 1)%Z
  | KInt z :: iks' => next_key (Z.max m z) iks'
  | _ :: _ => Err TypeError
  end.
(** [[c.identityKeys[i] for c in self._content]] (39) *)
Fixpoint column (h : heap) (i : nat) (content : list nat) : res (list kval) :=
  match content with
  | [] => Ok []
  | c :: cs => match nth_error (keys_of h c) i with
               | None => Err IndexError
               | Some k => do r <- column h i cs; Ok (k :: r)
               end
  end.
Fixpoint set_nth_key (i : nat) (k : kval) (ks : list kval) : list kval :=
  match ks, i with [], _ => [] | _ :: r, 0 => k :: r | x :: r, S j => x :: set_nth_key j k r end.

(** 38-42: [pk] is the tuple read before the loop; an exception leaves the keys set so far *)
Fixpoint assign (h : heap) (content : list nat) (o : nat) (i : nat) (pk : list kval) : res unit * heap :=
  match pk with
  | [] => (Ok tt, h)
  | k :: pk' =>
      match column h i content with
      | Err e => (Err e, h)
      | Ok iks =>
          match k with
          | KNone => match next_key (-1) iks with
                     | Err e => (Err e, h)
                     | Ok z => assign (dset o (set_nth_key i (KInt z) (keys_of h o)) h) content o (S i) pk'
                     end
          | _ => assign h content o (S i) pk'
          end
      end
  end.
(** 45-50 *)
Fixpoint place (h : heap) (pk : list kval) (o : nat) (content : list nat) : list nat :=
  match content with
  | [] => [o]
  | c :: cs => if beq pk (keys_of h c) then o :: cs else c :: place h pk o cs
  end.
(** 32-53 with [save=False]; when [many] is false, [self._content] is a list and calling it (52) raises TypeError *)
Definition commit (many : bool) (st : repo) (o : nat) : res unit * repo :=
  if many then
    match assign (objs st) (content st) o 0 (keys_of (objs st) o) with
    | (Err e, h) => (Err e, {| objs := h; catalog := catalog st; content := content st |})
    | (Ok _, h) =>
        let pk := keys_of h o in
        (Ok tt, {| objs := h; catalog := dset pk o (catalog st); content := place h pk o (content st) |})
    end
  else (Err TypeError, st).

(** 25-29 *)
Definition repo_contains (st : repo) (pk : list kval) : bool := dmem pk (catalog st).
Definition resolve_fkey (st : repo) (pk : list kval) : res nat := match dget pk (catalog st) with Some o => Ok o | None => Err KeyError end.

(** a program: makes entities, commits them; [SetKey] changes a primary key of an existing entity *)
Inductive repo_op := New (ks : list kval) | Commit (o : nat) | SetKey (o : nat) (i : nat) (k : kval).
Definition repo_step (st : repo) (x : repo_op) : res unit * repo :=
  match x with
  | New ks => (Ok tt, {| objs := objs st ++ [(length (objs st), ks)]; catalog := catalog st; content := content st |})
  | Commit o => if dmem o (objs st) then commit true st o else (Err NameError, st)
  | SetKey o i k => (Ok tt, {| objs := if dmem o (objs st) then dset o (set_nth_key i k (keys_of (objs st) o)) (objs st) else objs st;
                               catalog := catalog st; content := content st |})
  end.
Fixpoint repo_run (st : repo) (xs : list repo_op) : repo := match xs with [] => st | x :: xs' => repo_run (snd (repo_step st x)) xs' end.
Definition repo0 : repo := {| objs := []; catalog := []; content := [] |}.
