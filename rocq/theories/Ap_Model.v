(** Printing an array of a protocol class: ngoschema/protocols/array_protocol.py:86-99, with the text kept in [_str]. The array itself is
    that of Arr_Model. Simplification: the text of one item ([repr]) is a function of its value; for an item that is itself an object or an
    array this text is kept too (Pp_Model). *)
From Verif Require Import Base PyVal Arr_Model Pp_Model.

(** an array, and the text it was last printed as: None until then (collection_protocol.py:88-93 [_touch], when the array is made). *)
Record parr := { p_arr : arr; p_text : option (list ascii) }.

Section Print.
  Variable name : list ascii.                                  (* [cls.qualname()] *)
  Variable text : pyval -> list ascii.                         (* [repr] *)
  Variable show_nat : nat -> list ascii.                       (* ['%i' % n] *)
  (** how many item types are declared, when 'items' is a list (types/array.py:125-127); None when one type serves for all *)
  Variable declared : option nat.

  (** types/array.py:125-127 [_items_types(self, self._data)]: one type per item, as far as there are types *)
  Definition typed (s : arr) : nat := match declared with None => a_len s | Some k => Nat.min k (a_len s) end.
  (** [self._dataValidated[i] or self._data[i]] *)
  Definition shown (s : arr) (i : nat) : res pyval :=
    match nth_error (a_val s) i with
    | None => Err IndexError
    | Some v => if truthy v then Ok v else match nth_error (a_data s) i with Some d => Ok d | None => Err IndexError end
    end.
  Fixpoint each {A B} (f : A -> res B) (l : list A) : res (list B) :=
    match l with [] => Ok [] | x :: l' => do y <- f x; do ys <- each f l'; Ok (y :: ys) end.
  (** array_protocol.py:88-92 *)
  Definition list_text (s : arr) : res (list ascii) :=
    let hidden := a_len s - max_el in
    do a <- each (fun i => do v <- shown s i; Ok (shorten (text v))) (filter (fun i => Nat.ltb i max_el) (seq 0 (typed s)));
    Ok (chars "[" ++ join (chars ", ") (a ++ (if Nat.eqb hidden 0 then [] else [chars "+" ++ show_nat hidden ++ chars "..."])) ++ chars "]").
  (** array_protocol.py:86-93 [_str_list] *)
  Definition str_list (s : parr) : res (list ascii) * parr :=
    match p_text s with
    | Some t => (Ok t, s)
    | None => match list_text (p_arr s) with
              | Err e => (Err e, s)
              | Ok t => (Ok t, {| p_arr := p_arr s; p_text := Some t |})
              end
    end.
  Definition to_str (s : parr) : res (list ascii) * parr := str_list s.                             (* array_protocol.py:98-99 *)
  Definition to_repr (s : parr) : res (list ascii) * parr :=                                        (* array_protocol.py:95-96 *)
    (do t <- fst (str_list s); Ok (name ++ chars "(" ++ t ++ chars ")"), snd (str_list s)).

  (** a history of an array: the list operations of Arr_Model, and printing. [insert] (array_protocol.py:75-84) and [__setitem__],
      [__delitem__] (collection_protocol.py:144-160) do not touch [_str]. *)
  Inductive pop := PStr | PRepr | POp (o : aop).
  Inductive pout := Text (t : res (list ascii)) | Value (v : res pyval).
  Variable ev : pyval -> res pyval.
  Variables (prim : bool) (expr : pyval -> bool) (lazy unique : bool).
  Definition p_step (o : pop) (s : parr) : pout * parr :=
    match o with
    | PStr => (Text (fst (to_str s)), snd (to_str s))
    | PRepr => (Text (fst (to_repr s)), snd (to_repr s))
    | POp o => let (r, a) := a_step ev prim expr lazy unique o (p_arr s) in (Value r, {| p_arr := a; p_text := p_text s |})
    end.
  Fixpoint p_run (ops : list pop) (s : parr) : list pout * parr :=
    match ops with
    | [] => ([], s)
    | o :: ops' => let (r, s1) := p_step o s in let (rs, s2) := p_run ops' s1 in (r :: rs, s2)
    end.
  (** [__init__]: Arr_Model; nothing is printed yet *)
  Definition p_create (raw : list pyval) : res parr := do a <- a_create ev prim expr lazy unique raw; Ok {| p_arr := a; p_text := None |}.
End Print.
