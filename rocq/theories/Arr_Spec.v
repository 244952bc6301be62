(** What a list does, for the array properties. *)
From Verif Require Import Arr_Model Cmp_Spec.

(** index [i] refers to position [p] of a sequence of [n] items *)
Inductive Refers (n : nat) : Z -> nat -> Prop :=
| Ref_pos p : p < n -> Refers n (Z.of_nat p) p
| Ref_neg p : p < n -> Refers n (Z.of_nat p - Z.of_nat n) p.
Definition OutOfRange (n : nat) (i : Z) : Prop := (i < - Z.of_nat n \/ Z.of_nat n <= i)%Z.

(** inserting at [i] puts the item before position [p]; the indices a list would clamp are left out, except [-(n + 1)] *)
Inductive InsertsAt (n : nat) : Z -> nat -> Prop :=
| Ins_pos p : p <= n -> InsertsAt n (Z.of_nat p) p
| Ins_neg p : p < n -> InsertsAt n (Z.of_nat p - Z.of_nat n) p
| Ins_first : InsertsAt n (- Z.of_nat n - 1) 0.

Section Lists.
  Variable ev : pyval -> res pyval.

  (** the first item equal to [x] *)
  Definition FirstEqual (x : pyval) (l1 : list pyval) (y : pyval) : Prop := (forall z, In z l1 -> ~ PyEq z x) /\ PyEq y x.
  (** one operation on a list of values: its result, and the list afterwards *)
  Inductive LStep : aop -> list pyval -> res pyval -> list pyval -> Prop :=
  | L_get i l1 x l2 : Refers (length (l1 ++ x :: l2)) i (length l1) -> LStep (AGet i) (l1 ++ x :: l2) (Ok x) (l1 ++ x :: l2)
  | L_get_out i l : OutOfRange (length l) i -> LStep (AGet i) l (Err IndexError) l
  | L_set i v w l1 x l2 : Refers (length (l1 ++ x :: l2)) i (length l1) -> ev v = Ok w ->
      LStep (ASet i v) (l1 ++ x :: l2) (Ok VNone) (l1 ++ w :: l2)
  | L_set_out i v l : OutOfRange (length l) i -> LStep (ASet i v) l (Err IndexError) l
  | L_insert i v w l1 l2 : InsertsAt (length (l1 ++ l2)) i (length l1) -> ev v = Ok w ->
      LStep (AInsert i v) (l1 ++ l2) (Ok VNone) (l1 ++ w :: l2)
  | L_del i l1 x l2 : Refers (length (l1 ++ x :: l2)) i (length l1) -> LStep (ADel i) (l1 ++ x :: l2) (Ok VNone) (l1 ++ l2)
  | L_del_out i l : OutOfRange (length l) i -> LStep (ADel i) l (Err IndexError) l
  | L_len l : LStep ALen l (Ok (VInt (Z.of_nat (length l)))) l
  | L_iter l : LStep AIter l (Ok (VList l)) l
  | L_index x l1 y l2 : FirstEqual x l1 y -> LStep (AIndex x) (l1 ++ y :: l2) (Ok (VInt (Z.of_nat (length l1)))) (l1 ++ y :: l2)
  | L_index_not x l : (forall z, In z l -> ~ PyEq z x) -> LStep (AIndex x) l (Err ValueError) l
  | L_append v w l : ev v = Ok w -> LStep (AAppend v) l (Ok VNone) (l ++ [w])
  | L_extend vs ws l : Forall2 (fun v w => ev v = Ok w) vs ws -> LStep (AExtend vs) l (Ok VNone) (l ++ ws)
  | L_pop i l1 x l2 : Refers (length (l1 ++ x :: l2)) i (length l1) -> LStep (APop i) (l1 ++ x :: l2) (Ok x) (l1 ++ l2)
  | L_pop_out i l : OutOfRange (length l) i -> LStep (APop i) l (Err IndexError) l
  | L_remove x l1 y l2 : FirstEqual x l1 y -> LStep (ARemove x) (l1 ++ y :: l2) (Ok VNone) (l1 ++ l2)
  | L_remove_not x l : (forall z, In z l -> ~ PyEq z x) -> LStep (ARemove x) l (Err ValueError) l
  | L_reverse l : LStep AReverse l (Ok VNone) (rev l)
  | L_eq other l : Forall2 PyEq l other -> LStep (AEq other) l (Ok (VBool true)) l
  | L_eq_not other l : ~ Forall2 PyEq l other -> LStep (AEq other) l (Ok (VBool false)) l.

  Inductive LRun : list aop -> list pyval -> list (res pyval) -> list pyval -> Prop :=
  | LR_nil l : LRun [] l [] l
  | LR_cons o ops l r l1 rs l2 : LStep o l r l1 -> LRun ops l1 rs l2 -> LRun (o :: ops) l (r :: rs) l2.

  (** the values an operation brings in are all accepted, and an insertion index is not one a list would clamp *)
  Definition Accepted (n : nat) (o : aop) : Prop :=
    match o with
    | ASet _ v | AAppend v => exists w, ev v = Ok w
    | AInsert i v => (exists w, ev v = Ok w) /\ (- Z.of_nat n - 1 <= i <= Z.of_nat n)%Z
    | AExtend vs => Forall (fun v => exists w, ev v = Ok w) vs
    | _ => True
    end.

  (** evaluating an evaluated value changes nothing *)
  Definition Stable : Prop := forall v w, ev v = Ok w -> ev w = Ok w.
End Lists.

(** the operations that assign to an existing position *)
Definition assigns (o : aop) : bool := match o with ASet _ _ | AReverse => true | _ => false end.

(** the values an operation inserts *)
Definition inserted (o : aop) : list pyval := match o with AInsert _ v | AAppend v => [v] | AExtend vs => vs | _ => [] end.
(** 'uniqueItems' does not get in the way: values that are inserted have items that can be hashed (texts, mappings, ...), and
    so can the evaluated items *)
Definition Hashes (ev : pyval -> res pyval) (unique : bool) (ops : list aop) : Prop :=
  unique = true -> (forall v w, ev v = Ok w -> Query_Model.hashable w = true) /\
                   Forall (fun o => Forall (fun v => iterates v = true) (inserted o)) ops.
