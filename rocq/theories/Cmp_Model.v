(** Python's own [==], [<] and [in] on values. They are what ngoschema/query.py:75-92, 255-261, 431-456 and the
    [MutableSequence] methods of array objects compare values with. Simplifications: no floats; a dictionary is a plain one
    (two ordered dictionaries also compare their orders); an object that is no data equals itself only and has no order. *)
From Verif Require Export PyVal.

(** booleans are integers *)
Definition num_of (v : pyval) : option Z :=
  match v with VBool b => Some (if b then 1 else 0)%Z | VInt z => Some z | _ => None end.

(** item by item, as many on each side *)
Definition all2 (f : pyval -> pyval -> bool) : list pyval -> list pyval -> bool :=
  fix go (l m : list pyval) : bool :=
    match l, m with [], [] => true | x :: l', y :: m' => f x y && go l' m' | _, _ => false end.
(** every key of [d] is in [e], with an equal value *)
Definition sub_dict (f : pyval -> pyval -> bool) (e : list (string * pyval)) : list (string * pyval) -> bool :=
  fix go (d : list (string * pyval)) : bool :=
    match d with
    | [] => true
    | (k, x) :: d' => match dget k e with Some y => f x y && go d' | None => false end
    end.
(** [a == b] *)
Fixpoint val_eq (a b : pyval) {struct a} : bool :=
  match a, b with
  | VNone, VNone => true
  | VStr s, VStr t => beq s t
  | VObj n, VObj m => Nat.eqb n m
  | VList l, VList m | VTup l, VTup m => all2 val_eq l m
  | VDict d, VDict e => Nat.eqb (length d) (length e) && sub_dict val_eq e d
  | _, _ => match num_of a, num_of b with Some x, Some y => Z.eqb x y | _, _ => false end
  end.

(** sequences are compared at the first items that are not equal, else by length *)
Definition cmp2 (cmp : pyval -> pyval -> option comparison) : list pyval -> list pyval -> option comparison :=
  fix go (l m : list pyval) : option comparison :=
    match l, m with
    | [], [] => Some Eq
    | [], _ :: _ => Some Lt
    | _ :: _, [] => Some Gt
    | x :: l', y :: m' => if val_eq x y then go l' m' else cmp x y
    end.
(** the order of [a] and [b]; [None]: not supported, TypeError *)
Fixpoint val_cmp (a b : pyval) {struct a} : option comparison :=
  match a, b with
  | VStr s, VStr t => Some (String.compare s t)
  | VList l, VList m | VTup l, VTup m => cmp2 val_cmp l m
  | _, _ => match num_of a, num_of b with Some x, Some y => Some (Z.compare x y) | _, _ => None end
  end.

(** [x in l] of a list or a tuple *)
Definition vmem (x : pyval) (l : list pyval) : bool := existsb (fun y => val_eq y x) l.
(** the items that equal none before them *)
Fixpoint vdedup_loop (seen l : list pyval) : list pyval :=
  match l with
  | [] => []
  | x :: l' => if vmem x seen then vdedup_loop seen l' else x :: vdedup_loop (x :: seen) l'
  end.
Definition vdedup (l : list pyval) : list pyval := vdedup_loop [] l.
