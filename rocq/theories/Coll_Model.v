(** ngoschema/utils/utils.py: to_list, to_none_single_list, filter_collection, nested_dict_iter, split_path,
    get_descendant. *)
From Verif Require Export PyVal.

(** * to_list (utils.py:376-384) *)
Definition to_list (x : pyval) (default : pyval) : pyval :=
  match x with
  | VNone => default                                 (* 377-378 *)
  | VList l => VList l                               (* 381-382: the same object *)
  | VTup l => VList l                                (* 383-384 *)
  | _ => VList [x]                                   (* 379-380 *)
  end.

(** * to_none_single_list (utils.py:387-393) *)
Definition to_none_single_list (x : pyval) : pyval :=
  match to_list x VNone with
  | VList [] => VNone                                (* falls off the end *)
  | VList [y] => y                                   (* 390-391 *)
  | VList l => VList l                               (* 392-393 *)
  | _ => VNone
  end.

(** * filter_collection (utils.py:439-468) *)
(** [Same]: the argument object itself is returned; [Fresh v]: a deep copy was made and its final state is [v]. *)
Inductive filtered := Same | Fresh (v : pyval).

(** utils.py:450-460 [_filter_keys]. The recursive calls pass four positional arguments to a three-parameter
    function, hence [TypeError] (lines 456 and 459). *)
Definition filter_keys (recursive : bool) (container : pyval) (keys : list string) (keep : bool) : res pyval :=
  match container with
  | VDict l =>
      if keep then
        if recursive && existsb (fun k => dmem k l) keys then Err TypeError else Ok container
      else Ok (VDict (filter (fun p => negb (mem (fst p) keys)) l))
  | VList l | VTup l => match l with [] => Ok container | _ => Err TypeError end
  | _ => Ok container
  end.

(** utils.py:462-468 *)
Definition filter_collection (data : pyval) (only but : list string) (recursive : bool) : res filtered :=
  match only, but with
  | [], [] => Ok Same
  | _, _ =>
      do d1 <- (match only with [] => Ok data | _ => filter_keys recursive data only true end);
      do d2 <- (match but with [] => Ok d1 | _ => filter_keys recursive d1 but false end);
      Ok (Fresh d2)
  end.

(** * nested_dict_iter (utils.py:471-480), as the list of pairs it generates. The recursive call does not pass the
    separator on (line 477). *)
Fixpoint nested_dict_iter (separator : string) (nested : pyval) : list (string * pyval) :=
  match nested with
  | VDict l =>
      flat_map (fun p =>
        match snd p with
        | VDict _ => map (fun q => ((fst p ++ separator ++ fst q)%string, snd q)) (nested_dict_iter "." (snd p))
        | v => [(fst p, v)]
        end) l
  | _ => []
  end.

(** * split_path (utils.py:649-656) on character lists *)
(** [s.split(c)] for one character *)
Fixpoint split_char (c : ascii) (s : list ascii) : list (list ascii) :=
  match s with
  | [] => [[]]
  | x :: s' =>
      match split_char c s' with
      | [] => [[x]]                       (* never: the result is not empty *)
      | w :: ws => if beq x c then [] :: w :: ws else (x :: w) :: ws
      end
  end.
(** [s.strip(chars)] *)
Fixpoint lstrip (chars s : list ascii) : list ascii :=
  match s with [] => [] | x :: s' => if mem x chars then lstrip chars s' else s end.
Definition strip (chars s : list ascii) : list ascii := rev (lstrip chars (rev (lstrip chars s))).
(** [is_integer] (utils.py:320, jsonschema) is false for every string, so line 655 always appends the string. *)
Definition split_path (path : list ascii) : list (list ascii) :=
  flat_map (fun part => map (strip ["["; "]"]%char) (split_char "[" part)) (split_char "." path).

(** * get_descendant (utils.py:659-674) with a key list *)
Fixpoint get_descendant (obj : pyval) (key_list : list pykey) : res pyval :=
  match key_list with
  | [] => Err IndexError                                                            (* 667 *)
  | k0 :: ks =>
      let child := match getitem obj k0 with Ok v => v | Err _ => VNone end in      (* 669-672 *)
      match ks with
      | [] => Ok child
      | _ :: _ => if truthy child then get_descendant child ks else Ok child        (* 673-674 *)
      end
  end.
(** utils.py:665-666: a string is split first; all its components are strings *)
Definition get_descendant_str (obj : pyval) (path : list ascii) : res pyval :=
  get_descendant obj (map (fun w => KStr (string_of_list_ascii w)) (split_path path)).
