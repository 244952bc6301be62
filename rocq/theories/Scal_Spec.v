(** What evaluating a scalar value means. *)
From Verif Require Export Scal_Model.
From Coq Require Export QArith.
Local Close Scope Q_scope.

(** the number a value denotes, as a rational; True and False are the numbers 1 and 0 *)
Definition rational (m : Z) (k : nat) : Q := Qmake m (Z.to_pos (10 ^ Z.of_nat k)).
Inductive IsNumber : sval -> Q -> Prop :=
| Num_bool (b : bool) : IsNumber (SBool b) (inject_Z (if b then 1 else 0))
| Num_int z : IsNumber (SInt z) (inject_Z z)
| Num_float m k : IsNumber (SFloat m k) (rational m k)
| Num_dec m k : IsNumber (SDec m k) (rational m k).

(** what each keyword says of a value: number keywords speak of numbers only, text keywords of texts only; "type" says nothing *)
Inductive KSays : kword -> sval -> Prop :=
| Says_min m k v : (forall q, IsNumber v q -> (rational m k <= q)%Q) -> KSays (KMin m k) v
| Says_max m k v : (forall q, IsNumber v q -> (q <= rational m k)%Q) -> KSays (KMax m k) v
| Says_exmin m k v : (forall q, IsNumber v q -> (rational m k < q)%Q) -> KSays (KExMin m k) v
| Says_exmax m k v : (forall q, IsNumber v q -> (q < rational m k)%Q) -> KSays (KExMax m k) v
| Says_minlen n v : (forall s, v = SStr s -> n <= length s) -> KSays (KMinLen n) v
| Says_maxlen n v : (forall s, v = SStr s -> length s <= n) -> KSays (KMaxLen n) v
| Says_type t v : KSays (KType t) v
| Says_allof l v : (forall s k, In s l -> In k s -> KSays k v) -> KSays (KAllOf l) v
| Says_anyof l s v : In s l -> (forall k, In k s -> KSays k v) -> KSays (KAnyOf l) v
| Says_not s k v : In k s -> KDenies k v -> KSays (KNot s) v
with KDenies : kword -> sval -> Prop :=
| Denies_min m k v q : IsNumber v q -> (q < rational m k)%Q -> KDenies (KMin m k) v
| Denies_max m k v q : IsNumber v q -> (rational m k < q)%Q -> KDenies (KMax m k) v
| Denies_exmin m k v q : IsNumber v q -> (q <= rational m k)%Q -> KDenies (KExMin m k) v
| Denies_exmax m k v q : IsNumber v q -> (rational m k <= q)%Q -> KDenies (KExMax m k) v
| Denies_minlen n s : length s < n -> KDenies (KMinLen n) (SStr s)
| Denies_maxlen n s : n < length s -> KDenies (KMaxLen n) (SStr s)
| Denies_allof l s k v : In s l -> In k s -> KDenies k v -> KDenies (KAllOf l) v
| Denies_anyof l v : (forall s, In s l -> exists k, In k s /\ KDenies k v) -> KDenies (KAnyOf l) v
| Denies_not s v : (forall k, In k s -> KSays k v) -> KDenies (KNot s) v.

(** a value satisfies a schema when it satisfies each of its keywords *)
Definition Satisfies (s : schema) (v : sval) : Prop := forall k, In k s -> KSays k v.
(** ... leaving its "type" aside *)
Definition SatisfiesConstraints (s : schema) (v : sval) : Prop := forall k, In k s -> (forall t, k <> KType t) -> KSays k v.
(** no keyword "allOf" at the top *)
Definition NoAllOf (s : schema) : Prop := forall l, ~ In (KAllOf l) s.

(** the values of a type; Python's booleans are integers *)
Inductive Inhabits : stype -> sval -> Prop :=
| Inh_int z : Inhabits TInteger (SInt z)
| Inh_bool b : Inhabits TInteger (SBool b)
| Inh_dec m k : Inhabits TNumber (SDec m k)
| Inh_str s : Inhabits TString (SStr s).

(** [z] is the integer part of the number [q]: what is left of it when its decimals are dropped *)
Definition IntegerPart (q : Q) (z : Z) : Prop :=
  ((0 <= q /\ inject_Z z <= q /\ q < inject_Z (z + 1)) \/ (q < 0 /\ q <= inject_Z z /\ inject_Z (z - 1) < q))%Q.

(** the value of a type a literal stands for *)
Inductive Literal (int_of : list ascii -> option Z) (dec_of : list ascii -> option (Z * nat)) (show : sval -> list ascii) : stype -> sval -> sval -> Prop :=
| Lit_same t v : Inhabits t v -> Literal int_of dec_of show t v v
| Lit_trunc v q z : IsNumber v q -> (forall y, v <> SInt y) -> (forall b, v <> SBool b) -> IntegerPart q z -> Literal int_of dec_of show TInteger v (SInt z)
| Lit_int s z : int_of s = Some z -> Literal int_of dec_of show TInteger (SStr s) (SInt z)
| Lit_dec_int z : Literal int_of dec_of show TNumber (SInt z) (SDec z 0)
| Lit_dec_float m k : Literal int_of dec_of show TNumber (SFloat m k) (SDec m k)
| Lit_dec_bool (b : bool) : Literal int_of dec_of show TNumber (SBool b) (SDec (if b then 1 else 0) 0)
| Lit_dec s m k : dec_of s = Some (m, k) -> Literal int_of dec_of show TNumber (SStr s) (SDec m k)
| Lit_text v : v <> SNone -> (forall s, v <> SStr s) -> Literal int_of dec_of show TString v (SStr (show v)).

(** texts that are evaluated: those starting with a back quote, and those with "{{" or "{%" *)
Definition Expression (v : sval) : Prop := exists s, v = SStr ("`"%char :: s).
Definition Template (v : sval) : Prop :=
  ~ Expression v /\ exists a c b, v = SStr (a ++ "{"%char :: c :: b) /\ (c = "{"%char \/ c = "%"%char).
