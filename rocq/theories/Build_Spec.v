(** What a class should inherit. *)
From Verif Require Import Build_Model.

(** [s] is the schema of [t] or of one of its ancestors *)
Inductive Ancestor : cdef -> schema -> Prop :=
| anc_self s bs : Ancestor (CDef s bs) s
| anc_base s bs b s' : In b bs -> Ancestor b s' -> Ancestor (CDef s bs) s'.

(** [t] gets the entry [v] for [p]: its own, else the one of the first base that (itself or an ancestor) has one *)
Inductive Inherits {V} (own : schema -> dict string V) : cdef -> string -> V -> Prop :=
| inh_own s bs p v : dget p (own s) = Some v -> Inherits own (CDef s bs) p v
| inh_base s bs1 b bs2 p v : dget p (own s) = None ->
    (forall b' s', In b' bs1 -> Ancestor b' s' -> dget p (own s') = None) ->
    Inherits own b p v -> Inherits own (CDef s (bs1 ++ b :: bs2)) p v.
