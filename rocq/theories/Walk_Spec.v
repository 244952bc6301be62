(** What walking through a collection should do. *)
From Verif Require Export Walk_Model.
Local Open Scope char_scope. Local Open Scope list_scope.

(** every dictionary has each key once *)
Inductive Wf : jv -> Prop :=
| wf_str s : Wf (JStr s)
| wf_atom n : Wf (JAtom n)
| wf_map d : NoDup (map fst d) -> (forall k v, In (k, v) d -> Wf v) -> Wf (JMap d)
| wf_list l : (forall v, In v l -> Wf v) -> Wf (JList l).
Fixpoint size (c : jv) : nat :=
  match c with
  | JMap d => S ((fix go (d : list (str * jv)) := match d with [] => 0 | (_, v) :: d' => S (size v + go d') end) d)
  | JList l => S ((fix go (l : list jv) := match l with [] => 0 | v :: l' => S (size v + go l') end) l)
  | _ => 1
  end.

(** [c'] is [c] with every member replaced by [g], then the members of the replacement, at one level deeper, and so on *)
Inductive Walked (g : nat -> pos -> jv -> res jv) : nat -> jv -> jv -> Prop :=
| walked_str l s : Walked g l (JStr s) (JStr s)
| walked_atom l n : Walked g l (JAtom n) (JAtom n)
| walked_map l d d' : WMap g l d d' -> Walked g l (JMap d) (JMap d')
| walked_list l xs xs' : WList g l 0 xs xs' -> Walked g l (JList xs) (JList xs')
with WMap (g : nat -> pos -> jv -> res jv) : nat -> list (str * jv) -> list (str * jv) -> Prop :=
| wmap_nil l : WMap g l [] []
| wmap_cons l k v v1 v' d d' : g l (PKey k) v = Ok v1 -> Walked g (S l) v1 v' -> WMap g l d d' -> WMap g l ((k, v) :: d) ((k, v') :: d')
with WList (g : nat -> pos -> jv -> res jv) : nat -> nat -> list jv -> list jv -> Prop :=
| wlist_nil l i : WList g l i [] []
| wlist_cons l i v v1 v' xs xs' : g l (PIdx i) v = Ok v1 -> Walked g (S l) v1 v' -> WList g l (S i) xs xs' -> WList g l i (v :: xs) (v' :: xs').

(** the text or number at the end of a path *)
Fixpoint leaf_at (c : jv) (q : list pos) : option jv :=
  match q with
  | [] => match c with JStr _ | JAtom _ => Some c | _ => None end
  | p :: q' => match jget c p with Some v => leaf_at v q' | None => None end
  end.
(** the reference of a dictionary that is itself the value of a key *)
Definition RefPath (q : list pos) : Prop := exists q0 k, q = q0 ++ [PKey k; PKey (chars "$ref")].
