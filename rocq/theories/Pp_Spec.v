(** What printing an object shows. *)
From Verif Require Export Pp_Model.
From Coq Require Export Permutation.

(** a member of the data [d] of an object of the class [c] is printed: it is required, or it has a value and is not hidden; and its
    value is not its default *)
Definition Printed (c : pcls) (hidden : list string) (d : dict string (option pval)) (k : string) : Prop :=
  exists v, dget k d = Some v /\ (In k (c_required c) \/ (~ In k hidden /\ v <> None)) /\ c_default c k v = false.

(** the entries of a text: the members printed in some order, ten at most, each with the text of its value cut to forty characters,
    and how many there are more *)
Inductive Lists (show_nat : nat -> list ascii) (sep : list ascii) (value : string -> option pval) (printed : string -> Prop) : list (list ascii) -> Prop :=
| lists ks es : NoDup ks -> (forall k, In k ks <-> printed k) ->
    Forall2 (fun k e => exists t, e = list_ascii_of_string k ++ sep ++ (if Nat.ltb 40 (length t) then firstn 40 t ++ ["."; "."; "."]%char else t) /\
                        (value k = None -> t = list_ascii_of_string "None") /\ (forall u b, value k = Some (PLit u b) -> t = u)) (firstn 10 ks) es ->
    Lists show_nat sep value printed
      (es ++ (if Nat.ltb 10 (length ks) then [list_ascii_of_string "+" ++ show_nat (length ks - 10) ++ list_ascii_of_string "..."] else [])).

(** a value that counts as true: a true literal, an object with members *)
Inductive CountsTrue (st : pst) : option pval -> Prop :=
| ct_lit t : CountsTrue st (Some (PLit t true))
| ct_obj n o k v : the_obj st n = Some o -> In (k, v) (p_val o) -> CountsTrue st (Some (PObj n)).
