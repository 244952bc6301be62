(** What the criteria of a query mean, independently of how the filter evaluates them. *)
From Verif Require Import Query_Model.

Section Spec.
  Variable apply_op : string -> pyval -> pyval -> res pyval.

  (** operators applied one after the other, each to the result of the one before and to the given value *)
  Inductive OpChain : list string -> pyval -> pyval -> pyval -> Prop :=
  | OC_nil a b : OpChain [] a b a
  | OC_cons op ops a b a' r : apply_op op a b = Ok a' -> OpChain ops a' b r -> OpChain (op :: ops) a b r.

  (** a criterion without operators is an equality test *)
  Definition test_ops (c : crit) : list string := match c_ops c with [] => ["eq"%string] | ops => ops end.
  Definition CritHolds (obj : pyval) (c : crit) : Prop :=
    exists o r, get_descendant obj (path_keys (c_ks c)) = Ok o /\ o <> VNone /\ OpChain (test_ops c) o (c_val c) r /\ truthy r = negb (c_neg c).
  Definition CritMissing (obj : pyval) (c : crit) : Prop := get_descendant obj (path_keys (c_ks c)) = Ok VNone.
  Definition CritFails (obj : pyval) (c : crit) : Prop :=
    CritMissing obj c \/
    exists o r, get_descendant obj (path_keys (c_ks c)) = Ok o /\ o <> VNone /\ OpChain (test_ops c) o (c_val c) r /\ truthy r = c_neg c.
  (** evaluating the criterion raises nothing *)
  Definition CritDecided (obj : pyval) (c : crit) : Prop := CritHolds obj c \/ CritFails obj c.
  (** the criterion's operators are operators, not the names of children of a mapping *)
  Definition CritPlain (obj : pyval) (c : crit) : Prop :=
    c_ops c = [] \/ forall o, get_descendant obj (path_keys (c_ks c)) = Ok o -> is_mapping o = false.

  (** the components of a keyword *)
  Definition components (k : string) : list string := map unchars (split_on ["_"; "_"]%char (chars k)).
  Definition HasAttr (obj : pyval) (k : string) : Prop :=
    exists o, get_descendant obj (path_keys (components k)) = Ok o /\ o <> VNone.
End Spec.

(** the names of operators: comparisons, negation, membership, tests on texts, the size, and the item at a position *)
Definition OperatorName (e : string) : Prop :=
  In e ["eq"; "ne"; "neq"; "lt"; "le"; "gt"; "ge"]%string \/ e = "not"%string \/ In e ["in"; "contains"; "intersects"]%string \/
  In e ["startswith"; "endswith"; "ieq"; "istartswith"; "iendswith"; "icontains"; "regex"]%string \/ e = "size"%string \/
  exists position, e = String "@" position.

(** [Merge l a b]: [l] is a merge of [a] and [b], each in the order of [l] *)
Inductive Merge {A} : list A -> list A -> list A -> Prop :=
| M_nil : Merge [] [] []
| M_left x l a b : Merge l a b -> Merge (x :: l) (x :: a) b
| M_right x l a b : Merge l a b -> Merge (x :: l) a (x :: b).

(** what each read of a query over the results [l] should answer *)
Section Reads.
  Variable apply_op : string -> pyval -> pyval -> res pyval.
  Definition get_answer (matches : list pyval * option exn) : res pyval :=
    match matches with (_, Some e) => Err e | ([x], None) => Ok x | (_, None) => Err (UserError 0) end.
  Definition next_answer (matches : list pyval * option exn) : res pyval :=
    match matches with (x :: _, _) => Ok x | ([], Some e) => Err e | ([], None) => Err StopIteration end.
  Definition read_answer (distinct : bool) (l : list pyval) (r : qread) : qout :=
    match r with
    | QIter => OList (Ok l)
    | QLen | QCount => ONat (Ok (length l))
    | QIsEmpty => OBool (Ok (match l with [] => true | _ => false end))
    | QItem k => OVal (if Z.ltb k 0 then Err AssertionError
                       else match nth_error l (Z.to_nat k) with Some v => Ok v | None => Err IndexError end)
    | QFirst => OVal (Ok (match l with [] => VNone | v :: _ => v end))
    | QLast => OVal (Err AssertionError)
    | QContains x => OBool (Ok (vmem x l))
    | QGet attrs kvs => OVal (get_answer (filter_or_exclude apply_op attrs kvs false false distinct l))
    | QNext attrs kvs => OVal (next_answer (filter_or_exclude apply_op attrs kvs false false distinct l))
    end.
End Reads.
