(** Qualified names found in the source: ngoschema/utils/_qualname.py:43-128, the part run for an object without [__qualname__]. The source
    is its syntax tree with line numbers, and for each line whether it starts with '@' once stripped. Simplifications: the source is read
    and parsed once (the cache by file name, 103, is not modelled: a file that changes keeps its first names); the names of an object whose
    file or line cannot be found (79-97) raise and are left out. *)
From Verif Require Import Base.
Local Open Scope string_scope. Local Open Scope list_scope.

(** a function, a class, any other node with the nodes in it ([AsyncFunctionDef] too: no method visits it) *)
Inductive node := Fun (name : string) (line : nat) (body : list node) | Cls (name : string) (line : nat) (body : list node) | Oth (body : list node).

(** the visitor: [stack] and [qualnames] *)
Record visitor := { stack : list string; names : dict nat string }.
(** 49-51 *)
Definition store (line : nat) (v : visitor) : visitor := {| stack := stack v; names := dset line (String.concat "." (stack v)) (names v) |}.
Definition push (n : string) (v : visitor) : visitor := {| stack := stack v ++ [n]; names := names v |}.
Definition pop (v : visitor) : visitor := {| stack := removelast (stack v); names := names v |}.
(** 53-65 and [ast.NodeVisitor.generic_visit] *)
Fixpoint visit (n : node) (v : visitor) : visitor :=
  let fix go (ns : list node) (v : visitor) : visitor := match ns with [] => v | n :: ns' => go ns' (visit n v) end in
  match n with
  | Fun name line b => pop (pop (go b (push "<locals>" (store line (push name v)))))
  | Cls name line b => pop (go b (store line (push name v)))
  | Oth b => go b v
  end.
Fixpoint visit_all (ns : list node) (v : visitor) : visitor := match ns with [] => v | n :: ns' => visit_all ns' (visit n v) end.

Section Lines.
  (** [source.splitlines()]: does a line start with '@' once stripped. Lines are numbered from 1 *)
  Variable lines : list bool.
  (** 116-121: the lines after [i], as long as they start with '@' *)
  Fixpoint spread (fuel : nat) (i : nat) (v : string) (q : dict nat string) : res (dict nat string) :=
    match fuel with
    | 0 => Err OutOfFuel
    | S f => match nth_error lines (i - 1) with
             | None => Err IndexError
             | Some true => spread f (S i) v (dset (S i) v q)
             | Some false => Ok q
             end
    end.
  (** 113-121 *)
  Fixpoint spread_all (l : list (nat * string)) (q : dict nat string) : res (dict nat string) :=
    match l with [] => Ok q | (i, v) :: l' => do q1 <- spread (S (length lines)) i v q; spread_all l' q1 end.
  (** 105-122 *)
  Definition table (source : list node) : res (dict nat string) :=
    let q := names (visit_all source {| stack := []; names := [] |}) in spread_all q q.
  (** 123-126 *)
  Definition qualname (source : list node) (line : nat) : res string :=
    do q <- table source; match dget line q with Some n => Ok n | None => Err AttributeError end.
End Lines.
