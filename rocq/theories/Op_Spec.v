(** What the operators of a query mean. *)
From Verif Require Export Op_Model Cmp_Spec.
Local Open Scope char_scope.
Local Open Scope list_scope.

(** characters that mean something else in a pattern; case is understood in the first 128 characters *)
Definition specials : string := ".^$*+?{}[]\|()".
Definition PlainText (t : string) : Prop := forall c, In c (chars t) -> ~ In c (chars specials) /\ nat_of_ascii c < 128.

(** a value that can be a key: no list, no dictionary, and neither in a tuple *)
Inductive Hashable : pyval -> Prop :=
| H_none : Hashable VNone
| H_bool b : Hashable (VBool b)
| H_int z : Hashable (VInt z)
| H_str s : Hashable (VStr s)
| H_obj n : Hashable (VObj n)
| H_tup l : Forall Hashable l -> Hashable (VTup l).

(** being in a collection *)
Inductive IsIn : pyval -> pyval -> Prop :=
| I_list x y l : In y l -> PyEq y x -> IsIn x (VList l)
| I_tup x y l : In y l -> PyEq y x -> IsIn x (VTup l)
| I_key s v l : In (s, v) l -> IsIn (VStr s) (VDict l)
| I_sub t s a b : chars s = a ++ chars t ++ b -> IsIn (VStr t) (VStr s).
(** a collection in which one may look for the value *)
Inductive CanHold : pyval -> pyval -> Prop :=
| C_list x l : CanHold x (VList l)
| C_tup x l : CanHold x (VTup l)
| C_dict x l : Hashable x -> CanHold x (VDict l)
| C_str t s : CanHold (VStr t) (VStr s).

(** same text but for the case of the letters A to Z *)
Definition SameLetter (c d : ascii) : Prop :=
  c = d \/ exists n, 65 <= n /\ n <= 90 /\ ((nat_of_ascii c = n /\ nat_of_ascii d = n + 32) \/ (nat_of_ascii d = n /\ nat_of_ascii c = n + 32)).
Definition SameText (s t : list ascii) : Prop := Forall2 SameLetter s t.

Definition Seq (v : pyval) (l : list pyval) : Prop := v = VList l \/ v = VTup l.

(** [Means op a b]: the test [a op b] holds; [Defined op a b]: it can be asked *)
Inductive Means : string -> pyval -> pyval -> Prop :=
| M_eq a b : PyEq a b -> Means "eq" a b
| M_ne a b : ~ PyEq a b -> Means "ne" a b
| M_neq a b : ~ PyEq a b -> Means "neq" a b
| M_lt a b : Compares a b Lt -> Means "lt" a b
| M_gt a b : Compares a b Gt -> Means "gt" a b
| M_le a b c : Compares a b c -> c <> Gt -> Means "le" a b
| M_ge a b c : Compares a b c -> c <> Lt -> Means "ge" a b
| M_in a b : IsIn a b -> Means "in" a b
| M_contains a b : IsIn b a -> Means "contains" a b
| M_intersects a b la lb x y : Seq a la -> Seq b lb -> In x la -> In y lb -> PyEq y x -> Means "intersects" a b
| M_starts s t r : chars s = chars t ++ r -> Means "startswith" (VStr s) (VStr t)
| M_ends s t r : chars s = r ++ chars t -> Means "endswith" (VStr s) (VStr t)
| M_ieq s t : SameText (chars s) (chars t) -> Means "ieq" (VStr s) (VStr t)
| M_istarts s t a b : chars s = a ++ b -> SameText a (chars t) -> Means "istartswith" (VStr s) (VStr t)
| M_icontains s t a b c : chars s = a ++ b ++ c -> SameText b (chars t) -> Means "icontains" (VStr s) (VStr t).
Inductive Defined : string -> pyval -> pyval -> Prop :=
| D_eq op a b : In op ["eq"; "ne"; "neq"]%string -> Defined op a b
| D_order op a b : In op ["lt"; "le"; "ge"; "gt"]%string -> (exists c, Compares a b c) -> Defined op a b
| D_in a b : CanHold a b -> Defined "in" a b
| D_contains a b : CanHold b a -> Defined "contains" a b
| D_intersects a b la lb : Seq a la -> Seq b lb -> Forall Hashable (la ++ lb) -> Defined "intersects" a b
| D_text op s t : In op ["startswith"; "endswith"]%string -> Defined op (VStr s) (VStr t)
| D_case op s t : In op ["ieq"; "istartswith"; "icontains"]%string -> PlainText t ->
    (op = "ieq"%string -> forall r, chars s <> r ++ ["010"]) -> Defined op (VStr s) (VStr t).
(** the tests that involve no pattern *)
Definition plain_tests : list string := ["eq"; "ne"; "neq"; "lt"; "le"; "ge"; "gt"; "in"; "contains"; "intersects"; "startswith"; "endswith"]%string.
