(** Reducing a collection: ngoschema/utils/utils.py:396-411 [reduce_coll], over the walk of Walk_Model (414-436).
    [JAtom 0] is None, False or 0, the other atoms are true. Simplification: the view of the keys of a dictionary that line 405
    stores is an atom, true unless there are no keys: it is no dictionary and no list, so it is never walked through. *)
From Verif Require Export Walk_Model.
Local Open Scope list_scope.

(** the truth of a value *)
Definition truthy (v : jv) : bool :=
  match v with JStr [] | JAtom 0 | JMap [] | JList [] => false | _ => true end.
(** [del coll[key]] *)
Definition jdel (c : jv) (p : pos) : jv :=
  match c, p with JMap d, PKey k => JMap (ddel k d) | JList l, PIdx i => JList (firstn i l ++ skipn (S i) l) | _, _ => c end.
(** utils.py:387-393 [to_none_single_list] of [v.keys()]: a view is no sequence, so it comes back as the one item of a list *)
Definition view_of (d : list (str * jv)) : jv := match d with [] => JAtom 0 | _ => JAtom 1 end.
(** utils.py:387-393 of a list *)
Definition none_single (l : list jv) : jv := match l with [] => JAtom 0 | [x] => x | _ => JList l end.
(** utils.py:403-407 *)
Definition shortened (v : jv) : jv :=
  match v with
  | JMap d => if existsb (fun e => truthy (snd e)) d then v else view_of d
  | JList l => none_single l
  | _ => v
  end.
(** utils.py:401-409 [do_reduce] *)
Definition do_reduce (level : nat) (c : jv) (p : pos) : res jv :=
  match jget c p with
  | None => Err KeyError
  | Some v => Ok (if truthy (shortened v) then jput c p (shortened v) else jdel c p)
  end.
(** utils.py:411: what the collection has become; the call itself returns None *)
Definition reduce_coll (fuel : nat) (c : jv) : res jv := walk do_reduce fuel 0 c.
