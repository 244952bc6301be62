(** Sizes for reading by people. *)
From Verif Require Import Base.
From Coq Require Import NArith DecimalString.

(** [u] is the unit of [size]: 1024^k bytes, the largest that is not more than the size, or bytes *)
Inductive UnitOf (size : N) : string -> N -> Prop :=
| u_bytes : (size < 1024)%N -> UnitOf size "bytes" 1
| u_kb : (1024 <= size < 1024 ^ 2)%N -> UnitOf size "KB" 1024
| u_mb : (1024 ^ 2 <= size < 1024 ^ 3)%N -> UnitOf size "MB" (1024 ^ 2)
| u_gb : (1024 ^ 3 <= size < 1024 ^ 4)%N -> UnitOf size "GB" (1024 ^ 3)
| u_tb : (1024 ^ 4 <= size < 1024 ^ 5)%N -> UnitOf size "TB" (1024 ^ 4).
(** [t] tenths of the unit are nearest to the size *)
Definition Nearest (size unit t : N) : Prop := (2 * (10 * size) <= 2 * t * unit + unit)%N /\ (2 * t * unit <= 2 * (10 * size) + unit)%N.
(** the text of [t] tenths: the whole part, a point and one digit *)
Inductive Text (t : N) : string -> Prop :=
| text_of a b d : t = (10 * a + b)%N -> (b < 10)%N -> NilEmpty.uint_of_string d = Some (N.to_uint b) ->
    Text t (NilEmpty.string_of_uint (N.to_uint a) ++ "." ++ d)%string.
