(** What python's [repr] shows of a value, members of mappings in alphabetical order, and how a long text is cut. *)
From Verif Require Import Base Lf_Model.
From Coq Require Import Sorting.Permutation Sorting.Sorted DecimalString NArith.
Local Open Scope string_scope.
Local Open Scope list_scope.

(** what stands between the quotes [q] of a literal for a text; the first 256 characters that can be printed are 32-126 and 161-255
    but the soft hyphen *)
Definition CanPrint (c : ascii) : Prop := let n := N_of_ascii c in ((32 <= n <= 126) \/ (161 <= n /\ n <> 173))%N.
Definition HexDigit (c : ascii) (n : N) : Prop := nth_error (chars "0123456789abcdef") (N.to_nat n) = Some c.
Inductive Body (q : ascii) : str -> str -> Prop :=
| body_end : Body q [] []
| body_plain c b s : c <> q -> c <> "\"%char -> CanPrint c -> Body q b s -> Body q (c :: b) (c :: s)
| body_escaped c b s : c = q \/ c = "\"%char -> Body q b s -> Body q ("\"%char :: c :: b) (c :: s)
| body_tab b s : Body q b s -> Body q ("\"%char :: "t"%char :: b) ("009"%char :: s)
| body_newline b s : Body q b s -> Body q ("\"%char :: "n"%char :: b) ("010"%char :: s)
| body_return b s : Body q b s -> Body q ("\"%char :: "r"%char :: b) ("013"%char :: s)
| body_hex c h l x y b s : ~ CanPrint c -> HexDigit h x -> HexDigit l y -> N_of_ascii c = (16 * x + y)%N -> Body q b s ->
    Body q ("\"%char :: "x"%char :: h :: l :: b) (c :: s).

(** alphabetical order of texts *)
Inductive Before : str -> str -> Prop :=
| before_end c b : Before [] (c :: b)
| before_char x y a b : (N_of_ascii x < N_of_ascii y)%N -> Before (x :: a) (y :: b)
| before_next x a b : Before a b -> Before (x :: a) (x :: b).

(** texts between commas *)
Inductive Listed : list str -> str -> Prop :=
| listed_none : Listed [] []
| listed_one t : Listed [t] t
| listed_more t ts r : ts <> [] -> Listed ts r -> Listed (t :: ts) (t ++ chars ", " ++ r).

Inductive Shown : lv -> str -> Prop :=
| shown_text s : Shown (LText s) (repr s)
| shown_other t : Shown (LOther t) t
| shown_set t : Shown (LSet t) t
| shown_list l ts b : Forall2 Shown l ts -> Listed ts b -> Shown (LSeq KList l) (chars "[" ++ b ++ chars "]")
| shown_single v t : Shown v t -> Shown (LSeq KTup [v]) (chars "(" ++ t ++ chars ",)")
| shown_tuple l ts b : length l <> 1 -> Forall2 Shown l ts -> Listed ts b -> Shown (LSeq KTup l) (chars "(" ++ b ++ chars ")")
| shown_map items sorted ts b : Permutation items sorted -> StronglySorted (fun x y => Before (fst x) (fst y)) sorted ->
    Forall2 (fun it t => exists tv, Shown (snd it) tv /\ t = repr (fst it) ++ chars ": " ++ tv) sorted ts -> Listed ts b ->
    Shown (LMap items) (chars "{" ++ b ++ chars "}").

(** collections nested at most [n] deep; empty ones do not count *)
Inductive Nested : nat -> lv -> Prop :=
| nested_text n s : Nested n (LText s)
| nested_other n t : Nested n (LOther t)
| nested_set n t : Nested n (LSet t)
| nested_empty n k : Nested n (LSeq k [])
| nested_empty_map n : Nested n (LMap [])
| nested_seq n k l : (forall v, In v l -> Nested n v) -> Nested (S n) (LSeq k l)
| nested_map n items : (forall k v, In (k, v) items -> Nested n v) -> Nested (S n) (LMap items).

(** what is left of a text of 1200 characters or more *)
Inductive Cut (close : str) (t : str) : str -> Prop :=
| cut_not : length t < 1200 -> Cut close t t
| cut_at a b : t = a ++ b -> length a = 1200 -> Cut close t (a ++ chars "..." ++ close).
(** how many elements are left out, told when there are ten or more *)
Inductive More (limit n : nat) : str -> Prop :=
| more_not : n < limit -> More limit n []
| more_told d : n = limit + d -> More limit n (chars "+" ++ chars (NilEmpty.string_of_uint (Nat.to_uint d)) ++ chars "...").
