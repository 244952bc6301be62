(** When two values are equal, as the code has it *)
From Verif Require Import Cmp_Spec Eq_Model.

Inductive Same : iv -> iv -> Prop :=
| same_prim v w : PyEq v w -> Same (IPrim v) (IPrim w)                          (* python's own equality *)
| same_list xs ys : Forall2 Same xs ys -> Same (IList xs) (IList ys)
| same_map xs ys : length xs = length ys -> (forall k x, In (k, x) xs -> exists y, dget k ys = Some y /\ Same x y) -> Same (IMap xs) (IMap ys)
| same_obj i c d u v l m : Same (IObj i c u l) (IObj i d v m)                    (* the same instance *)
| same_arr i c d l m : Same (IArr i c l) (IArr i d m)
| same_items i j c l m : Forall2 Same l m -> Same (IArr i c l) (IArr j c m)      (* arrays of the same class *)
| same_empty i j c d u v : Same (IObj i c u []) (IObj j d v [])                  (* empty mappings *)
| same_empty_r i c u : Same (IObj i c u []) (IMap [])
| same_empty_l i c u : Same (IMap []) (IObj i c u []).

(** a part of a value, at any depth *)
Inductive Part (p : iv) : iv -> Prop :=
| part_self : Part p p
| part_list l x : In x l -> Part p x -> Part p (IList l)
| part_map l k x : In (k, x) l -> Part p x -> Part p (IMap l)
| part_obj i c u l k x : In (k, x) l -> Part p x -> Part p (IObj i c u l)
| part_arr i c l x : In x l -> Part p x -> Part p (IArr i c l).
(** values of one state of the program: the number of an instance tells it, a dictionary has each key once, and a list or a
    dictionary is no primitive *)
Record World (h : nat -> option iv) (x : iv) : Prop := {
  w_instance : forall p i, Part p x -> id_of p = Some i -> h i = Some p;
  w_keys : forall l, Part (IMap l) x -> NoDup (dkeys l);
  w_prim : forall v, Part (IPrim v) x -> match v with VList _ | VTup _ | VDict _ => False | _ => True end
}.
(** how deep a value is, through lists, dictionaries and arrays *)
Fixpoint depth (x : iv) : nat :=
  match x with
  | IPrim _ => 1
  | IList l | IArr _ _ l => S (fold_right Nat.max 0 (map depth l))
  | IMap l | IObj _ _ _ l => S (fold_right Nat.max 0 (map (fun kv => depth (snd kv)) l))
  end.
(** [issubclass] is an order *)
Record Order (sub : nat -> nat -> bool) : Prop := {
  o_refl : forall c, sub c c = true;
  o_antisym : forall c d, sub c d = true -> sub d c = true -> c = d;
  o_trans : forall a b c, sub a b = true -> sub b c = true -> sub a c = true
}.
(** what is found by positions through lists and arrays *)
Inductive Inside : list nat -> iv -> iv -> Prop :=
| in_here x : Inside [] x x
| in_list i p l x y : nth_error l i = Some x -> Inside p x y -> Inside (i :: p) (IList l) y
| in_arr i p j c l x y : nth_error l i = Some x -> Inside p x y -> Inside (i :: p) (IArr j c l) y.
