(** ngoschema/utils/str_utils.py: multiple_replace 146-161, split_string 164-179, rreplace 188-191, shorten 198-202,
    inline 205-206. Strings are character lists. *)
From Verif Require Export Base Bracket_Model Coll_Model.

(** last occurrence of [old] in [s], as the texts before and after it *)
Fixpoint rfind_split (old s : list ascii) : option (list ascii * list ascii) :=
  match s with
  | [] => if is_prefix old [] then Some ([], []) else None
  | x :: s' =>
      match rfind_split old s' with
      | Some (a, b) => Some (x :: a, b)
      | None => if is_prefix old s then Some ([], skipn (length old) s) else None
      end
  end.

(** [s.rsplit(old, maxsplit)] for a non-empty separator; negative [maxsplit] means no limit. [fuel] bounds the number of
    splits, which is at most the length of [s]. *)
Fixpoint rsplit_loop (fuel : nat) (old s : list ascii) (n : nat) : list (list ascii) :=
  match fuel, n with
  | S f, S n' => match rfind_split old s with
                 | Some (a, b) => rsplit_loop f old a n' ++ [b]
                 | None => [s]
                 end
  | _, _ => [s]
  end.
Definition rsplit (s old : list ascii) (maxsplit : Z) : res (list (list ascii)) :=
  match old with
  | [] => Err ValueError
  | _ => Ok (rsplit_loop (length s) old s (if Z.ltb maxsplit 0 then length s else Z.to_nat maxsplit))
  end.

(** [sep.join(ws)] *)
Fixpoint ljoin (sep : list ascii) (ws : list (list ascii)) : list ascii :=
  match ws with [] => [] | [w] => w | w :: ws' => w ++ sep ++ ljoin sep ws' end.

(** str_utils.py:188-191 [rreplace] *)
Definition rreplace (s old new : list ascii) (occurrence : Z) : res (list ascii) :=
  do li <- rsplit s old occurrence; Ok (ljoin new li).

(** str_utils.py:198-202 [shorten], after [str_fun] (simplification: max_size is a natural number) *)
Definition shorten (s : list ascii) (max_size : nat) : list ascii :=
  if Nat.ltb max_size (length s) then firstn max_size s ++ ["."; "."; "."]%char else s.

(** str_utils.py:146-161 [multiple_replace]: one left-to-right pass of the alternation of the (escaped) keys, in
    dictionary order. Simplification: keys are not empty (an empty alternative has the matching rules of [re] for empty
    matches, not modelled); an empty dictionary compiles to the empty pattern whose match '' is not a key. *)
Definition first_key (kvs : list (list ascii * list ascii)) (s : list ascii) : option (list ascii * list ascii) :=
  find (fun kv => is_prefix (fst kv) s) kvs.
Fixpoint mreplace_loop (fuel : nat) (kvs : list (list ascii * list ascii)) (s : list ascii) : list ascii :=
  match fuel with
  | 0 => s
  | S f =>
      match s with
      | [] => []
      | x :: s' => match first_key kvs s with
                   | Some (k, v) => v ++ mreplace_loop f kvs (skipn (length k) s)
                   | None => x :: mreplace_loop f kvs s'
                   end
      end
  end.
Definition multiple_replace (s : list ascii) (kvs : list (list ascii * list ascii)) : res (list ascii) :=
  match kvs with [] => Err KeyError | _ => Ok (mreplace_loop (S (length s)) kvs s) end.

(** str_utils.py:164-179 [split_string] on one string: the regular expression is the alternation of the delimiter
    characters (special characters escaped). White space for [strip] is that of [str.isspace], among the first 256 code
    points. *)
Definition whitespace : list ascii := [" "; "009"; "010"; "011"; "012"; "013"; "028"; "029"; "030"; "031"; "133"; "160"]%char.
Fixpoint split_any (delims s : list ascii) : list (list ascii) :=
  match s with
  | [] => [[]]
  | x :: s' =>
      match split_any delims s' with
      | [] => [[x]]
      | w :: ws => if mem x delims then [] :: w :: ws else (x :: w) :: ws
      end
  end.
Definition split_string (s delims : list ascii) (do_strip : bool) : list (list ascii) :=
  match delims with
  | [] => [s]
  | _ => map (fun w => if do_strip then strip whitespace w else w) (split_any delims s)
  end.

(** str_utils.py:205-206 [inline]: newlines become backslash-n *)
Definition inline (s : list ascii) : list ascii := ljoin ["\"; "n"]%char (split_char "010"%char s).
