(** JSON pointers (RFC 6901) and percent encoding, written independently of the resolver. *)
From Verif Require Export PyVal Query_Model.
From Coq Require Import DecimalString.
Local Open Scope char_scope. Local Open Scope list_scope.

(** the decimal numeral of a natural number *)
Definition decimal (n : nat) : list ascii := list_ascii_of_string (NilEmpty.string_of_uint (Nat.to_uint n)).

(** escaping of a token *)
Definition escape (t : list ascii) : list ascii :=
  flat_map (fun c => if beq c "~" then ["~"; "0"] else if beq c "/" then ["~"; "1"] else [c]) t.
Definition pointer (tokens : list (list ascii)) : list ascii := flat_map (fun t => "/" :: escape t) tokens.

(** [q] is [s] with some characters (all '%' at least) percent-encoded *)
Definition HexDigit (c : ascii) (n : nat) : Prop :=
  nth_error (list_ascii_of_string "0123456789abcdef") n = Some c \/ nth_error (list_ascii_of_string "0123456789ABCDEF") n = Some c.
Inductive Quoted : list ascii -> list ascii -> Prop :=
| q_nil : Quoted [] []
| q_char c s q : c <> "%" -> Quoted s q -> Quoted (c :: s) (c :: q)
| q_hex a b x y s q : HexDigit a x -> HexDigit b y -> Quoted s q -> Quoted (ascii_of_nat (16 * x + y) :: s) ("%" :: a :: b :: q).

(** following tokens from a document. [ix t len i]: token [t] names position [i] of a list of length [len] *)
Inductive Reach (ix : list ascii -> nat -> nat -> Prop) : pyval -> list (list ascii) -> pyval -> Prop :=
| reach_here v : Reach ix v [] v
| reach_key l t v ts w : dget (unchars t) l = Some v -> Reach ix v ts w -> Reach ix (VDict l) (t :: ts) w
| reach_item l t i v ts w : ix t (length l) i -> nth_error l i = Some v -> Reach ix v ts w -> Reach ix (VList l) (t :: ts) w
| reach_titem l t i v ts w : ix t (length l) i -> nth_error l i = Some v -> Reach ix v ts w -> Reach ix (VTup l) (t :: ts) w.

(** the standard's positions: decimal numerals *)
Definition rfc_index (t : list ascii) (len i : nat) : Prop := t = decimal i.
(** Python's: any integer literal; a negative one counts from the end *)
Definition py_position (t : list ascii) (len i : nat) : Prop :=
  exists z, parse_int t = Some z /\ ((0 <= z /\ Z.of_nat i = z)%Z \/ (z < 0 /\ Z.of_nat i = Z.of_nat len + z)%Z).
