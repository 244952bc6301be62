(** When values are equal and when one is less than the other. *)
From Verif Require Import PyVal.

Inductive Num : pyval -> Z -> Prop :=
| num_true : Num (VBool true) 1
| num_false : Num (VBool false) 0
| num_int z : Num (VInt z) z.

Inductive PyEq : pyval -> pyval -> Prop :=
| eq_none : PyEq VNone VNone
| eq_num a b z : Num a z -> Num b z -> PyEq a b
| eq_str s : PyEq (VStr s) (VStr s)
| eq_obj n : PyEq (VObj n) (VObj n)
| eq_list l m : Forall2 PyEq l m -> PyEq (VList l) (VList m)
| eq_tup l m : Forall2 PyEq l m -> PyEq (VTup l) (VTup m)
| eq_dict d e : length d = length e -> (forall k x, In (k, x) d -> exists y, dget k e = Some y /\ PyEq x y) -> PyEq (VDict d) (VDict e).

(** order of texts: by the first character that differs *)
Inductive TextLt : list ascii -> list ascii -> Prop :=
| TL_short c s : TextLt [] (c :: s)
| TL_first c d s t : nat_of_ascii c < nat_of_ascii d -> TextLt (c :: s) (d :: t)
| TL_next c s t : TextLt s t -> TextLt (c :: s) (c :: t).

(** two lists, or two tuples *)
Inductive SameKind : pyval -> list pyval -> pyval -> list pyval -> Prop :=
| kind_list l m : SameKind (VList l) l (VList m) m
| kind_tup l m : SameKind (VTup l) l (VTup m) m.
(** how [a] compares with [b]: numbers, texts, and sequences of one kind, which compare as the first items that are not equal
    do, or by their lengths. Nothing else compares. *)
Inductive Compares : pyval -> pyval -> comparison -> Prop :=
| cmp_num_lt a b x y : Num a x -> Num b y -> (x < y)%Z -> Compares a b Lt
| cmp_num_eq a b x : Num a x -> Num b x -> Compares a b Eq
| cmp_num_gt a b x y : Num a x -> Num b y -> (x > y)%Z -> Compares a b Gt
| cmp_str_lt s t : TextLt (list_ascii_of_string s) (list_ascii_of_string t) -> Compares (VStr s) (VStr t) Lt
| cmp_str_eq s : Compares (VStr s) (VStr s) Eq
| cmp_str_gt s t : TextLt (list_ascii_of_string t) (list_ascii_of_string s) -> Compares (VStr s) (VStr t) Gt
| cmp_same a b l m : SameKind a l b m -> Forall2 PyEq l m -> Compares a b Eq
| cmp_short a b l m y r : SameKind a l b (m ++ y :: r) -> Forall2 PyEq l m -> Compares a b Lt
| cmp_long a b l x r m : SameKind a (l ++ x :: r) b m -> Forall2 PyEq l m -> Compares a b Gt
| cmp_item a b l x r m y t c : SameKind a (l ++ x :: r) b (m ++ y :: t) -> Forall2 PyEq l m -> ~ PyEq x y -> Compares x y c -> Compares a b c.
