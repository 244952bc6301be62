(** Comparing objects and arrays: ngoschema/protocols/collection_protocol.py:206-224 ([copy], [__eq__]), with [check] of
    types/array.py:171-179, types/collection.py:64-66, protocols/checker.py:16-23 and protocols/object_protocol.py:167-178,
    object.py:48-53, and [self[0]] of object_protocol.py:356-358. Values are those read from the members (C30, C56): reading
    does not raise. Simplification: keys are texts.
    The fuel is the depth Python's recursion limit leaves. *)
From Verif Require Export PyVal Cmp_Model.

(** an instance is known by its number [id] ([is]); [up] tells whether an object has a parent, which is an object then *)
Inductive iv :=
| IPrim (v : pyval)
| IList (l : list iv)
| IMap (l : list (string * iv))
| IObj (id cls : nat) (up : bool) (l : list (string * iv))
| IArr (id cls : nat) (l : list iv).

Section Equality.
  Variable sub : nat -> nat -> bool.          (* issubclass *)

  Definition class_of (x : iv) : option nat := match x with IObj _ c _ _ | IArr _ c _ => Some c | _ => None end.
  Definition id_of (x : iv) : option nat := match x with IObj i _ _ _ | IArr i _ _ => Some i | _ => None end.
  Definition same_instance (x y : iv) : bool := match id_of x, id_of y with Some i, Some j => Nat.eqb i j | _, _ => false end.
  (** python tries the method of the right operand first when its class is a proper subclass of that of the left one *)
  Definition right_first (x y : iv) : bool :=
    match class_of x, class_of y with Some c, Some d => sub d c && negb (Nat.eqb c d) | _, _ => false end.
  (** [self._parent != key]: None is no text, and an object is not equal to a text, which is no mapping (212-213) *)
  Definition parent_is (up : bool) (k : string) : bool := false.

  Section Depth.
    Variable rec : iv -> iv -> res bool.
    (** list and tuple comparison: the lengths, then item by item *)
    Fixpoint all_eq (xs ys : list iv) : res bool :=
      match xs, ys with
      | x :: xs', y :: ys' => do b <- rec x y; if b then all_eq xs' ys' else Ok false
      | _, _ => Ok true
      end.
    (** dictionary comparison: as many keys, and every key of the one is in the other with an equal value *)
    Fixpoint map_eq (xs ys : list (string * iv)) : res bool :=
      match xs with
      | [] => Ok true
      | (k, x) :: xs' => match dget k ys with
                         | None => Ok false
                         | Some y => do b <- rec x y; if b then map_eq xs' ys else Ok false
                         end
      end.
    (** 209-221 of an object [x] that is not [y]: any mapping passes the check; [enumerate] gives positions and keys; the
        item at position 0 is the parent, and a position is no key *)
    Definition obj_eq (up : bool) (n : nat) (y : iv) : res bool :=
      match y with
      | IMap l | IObj _ _ _ l =>
          if Nat.eqb n (length l) then
            match l with
            | [] => Ok true
            | (k, _) :: l' => if parent_is up k then match l' with [] => Ok true | _ => Err TypeError end else Ok false
            end
          else Ok false
      | _ => Ok false
      end.
    (** ... of an array: only instances of its class pass the check *)
    Definition arr_eq (c : nat) (xs : list iv) (y : iv) : res bool :=
      match y with
      | IArr _ d ys => if sub d c then if Nat.eqb (length xs) (length ys) then all_eq xs ys else Ok false else Ok false
      | _ => Ok false
      end.
    Definition dunder_eq (x y : iv) : res bool :=
      if same_instance x y then Ok true
      else match x with
           | IObj _ _ up l => obj_eq up (length l) y
           | IArr _ c xs => arr_eq c xs y
           | _ => Ok false
           end.
  End Depth.
  (** [x == y]; lists and dictionaries that are not instances have python's own comparison *)
  Fixpoint py_eq (n : nat) (x y : iv) : res bool :=
    match n with
    | 0 => Err RecursionError
    | S n' =>
        match x, y with
        | IPrim v, IPrim w => Ok (val_eq v w)
        | IList xs, IList ys => if Nat.eqb (length xs) (length ys) then all_eq (py_eq n') xs ys else Ok false
        | IMap xs, IMap ys => if Nat.eqb (length xs) (length ys) then map_eq (py_eq n') xs ys else Ok false
        | (IObj _ _ _ _ | IArr _ _ _), _ => if right_first x y then dunder_eq (py_eq n') y x else dunder_eq (py_eq n') x y
        | _, (IObj _ _ _ _ | IArr _ _ _) => dunder_eq (py_eq n') y x
        | _, _ => Ok false
        end
    end.
  (** [x in self], Sequence.__contains__: [v is x or v == x] for an item [v]; [is] for other values is left to [==] *)
  Fixpoint contains (n : nat) (x : iv) (l : list iv) : res bool :=
    match l with
    | [] => Ok false
    | v :: l' => if same_instance v x then Ok true else do b <- py_eq n v x; if b then Ok true else contains n x l'
    end.
  (** [index]: MutableSequence *)
  Fixpoint index (n i : nat) (x : iv) (l : list iv) : res nat :=
    match l with
    | [] => Err ValueError
    | v :: l' => if same_instance v x then Ok i else do b <- py_eq n v x; if b then Ok i else index n (S i) x l'
    end.
End Equality.
