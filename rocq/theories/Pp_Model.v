(** Printing objects: ngoschema/types/object.py:83-97 and 243-260 (the order of printing), ngoschema/protocols/object_protocol.py
    474-493 (__repr__, __str__), ngoschema/protocols/collection_protocol.py 88-95 (touching) and utils/str_utils.py:198-202
    (shorten). Simplifications: a value is a literal, with the text [repr] gives and its truth value, or an object; whether a
    member equals the default of its type is asked of a function of the class, member and value; the order in which Python goes
    through a set is a function given from outside; assignments touch the member assigned only, not those that depend on it. *)
From Verif Require Export Base.
Notation str := (list ascii).

Inductive pval := PLit (text : str) (true_ : bool) | PObj (n : nat).
Record pcls := { c_name : str; c_readonly : list string; c_required : list string; c_default : string -> option pval -> bool }.
(** [_data] has None for a member without value; [_dataValidated] has None until the member is read *)
Record pobj := { p_cls : nat; p_data : dict string (option pval); p_val : dict string (option pval); p_repr : option str; p_str : option str }.
(** [s_excl] is the list that is the default of the parameter [excludes] of [ObjectSerializer._print_order] (object.py:83): one list
    for the whole process *)
Record pst := { s_heap : list pobj; s_excl : list string }.

(** config/settings.py:61-62 *)
Definition max_el : nat := 10.
Definition max_strl : nat := 40.
(** utils/str_utils.py:198-202 *)
Definition shorten (s : str) : str := if Nat.ltb max_strl (length s) then firstn max_strl s ++ ["."; "."; "."]%char else s.
Fixpoint join (sep : str) (ws : list str) : str := match ws with [] => [] | [w] => w | w :: ws' => w ++ sep ++ join sep ws' end.
Definition chars (s : string) : str := list_ascii_of_string s.

Section Printing.
  Variable classes : nat -> pcls.
  Variable order : list string -> list string.                            (* [list(set)] *)
  Variable show_nat : nat -> str.                                         (* ['%i' % n] *)

  (** object.py:86-97: required members first; others unless excluded or None *)
  Definition included (c : pcls) (excl : list string) (d : dict string (option pval)) (k : string) : bool :=
    mem k (c_required c) || (negb (mem k excl) && match dget k d with Some (Some _) => true | _ => false end).
  Definition ordered (c : pcls) (d : dict string (option pval)) : list string :=
    order (filter (fun k => mem k (c_required c)) (dkeys d)) ++ order (filter (fun k => negb (mem k (c_required c))) (dkeys d)).
  (** object.py:246-260: members that have their default value are skipped *)
  Definition print_order (c : pcls) (excl : list string) (d : dict string (option pval)) : list string :=
    filter (fun k => negb (c_default c k (match dget k d with Some v => v | None => None end))) (filter (included c excl d) (ordered c d)).

  Definition the_obj (st : pst) (n : nat) : option pobj := nth_error (s_heap st) n.
  Fixpoint set_nth {A} (n : nat) (x : A) (l : list A) : list A :=
    match l, n with [], _ => [] | _ :: l', 0 => x :: l' | y :: l', S n' => y :: set_nth n' x l' end.
  Definition set_obj (st : pst) (n : nat) (o : pobj) : pst := {| s_heap := set_nth n o (s_heap st); s_excl := s_excl st |}.
  (** bool(value): an object is true when it has members (collection_protocol.py, __len__) *)
  Definition is_true (st : pst) (v : option pval) : bool :=
    match v with
    | None => false
    | Some (PLit _ b) => b
    | Some (PObj n) => match the_obj st n with Some o => negb (beq (dkeys (p_val o)) []) | None => true end
    end.
  (** [self._dataValidated[k] or self._data[k]] *)
  Definition shown_value (st : pst) (o : pobj) (k : string) : option pval :=
    match dget k (p_val o) with
    | Some v => if is_true st v then v else match dget k (p_data o) with Some w => w | None => None end
    | None => None                                                        (* KeyError in Python: the keys of both agree *)
    end.

  Definition rest (n : nat) : list str := match n with 0 => [] | _ => [chars "+" ++ show_nat n ++ chars "..."] end.
  Definition repr_text (c : pcls) (a : list str) : str := c_name c ++ chars "(" ++ join (chars ", ") a ++ chars ")".
  Definition str_text (a : list str) : str := chars "{" ++ join (chars ", ") a ++ chars "}".

  (** one entry after the other; [repr_of] is [repr] of an object, which changes the state *)
  Fixpoint entries (repr_of : nat -> pst -> res str * pst) (sep : str) (o : pobj) (ks : list string) (st : pst) : res (list str) * pst :=
    match ks with
    | [] => (Ok [], st)
    | k :: ks' =>
        let r := match shown_value st o k with
                 | None => (Ok (chars "None"), st)
                 | Some (PLit t _) => (Ok t, st)
                 | Some (PObj n) => repr_of n st
                 end in
        match fst r with
        | Err e => (Err e, snd r)
        | Ok t => let q := entries repr_of sep o ks' (snd r) in
                  (rbind (fst q) (fun a => Ok ((chars k ++ sep ++ shorten t) :: a)), snd q)
        end
    end.
  (** object_protocol.py:474-483; 92 [excludes += list(self._readOnly)] adds to the list itself *)
  Fixpoint repr (fuel n : nat) (st : pst) : res str * pst :=
    match fuel with
    | 0 => (Err RecursionError, st)
    | S f =>
      match the_obj st n with
      | None => (Err IndexError, st)
      | Some o =>
        match p_repr o with
        | Some t => (Ok t, st)
        | None =>
            let c := classes (p_cls o) in
            let st1 := {| s_heap := s_heap st; s_excl := s_excl st ++ c_readonly c |} in
            let ks := print_order c (s_excl st1) (p_data o) in
            let q := entries (repr f) (chars "=") o (firstn max_el ks) st1 in
            match fst q with
            | Err e => (Err e, snd q)
            | Ok a => let t := repr_text c (a ++ rest (length ks - max_el)) in
                      (Ok t, match the_obj (snd q) n with
                             | Some o' => set_obj (snd q) n {| p_cls := p_cls o'; p_data := p_data o'; p_val := p_val o'; p_repr := Some t; p_str := p_str o' |}
                             | None => snd q
                             end)
            end
        end
      end
    end.
  (** object_protocol.py:485-493: read-only members are not left out *)
  Definition to_str (fuel n : nat) (st : pst) : res str * pst :=
    match the_obj st n with
    | None => (Err IndexError, st)
    | Some o =>
      match p_str o with
      | Some t => (Ok t, st)
      | None =>
          let c := classes (p_cls o) in
          let ks := print_order c (s_excl st) (p_data o) in
          let q := entries (repr fuel) (chars ": ") o (firstn max_el ks) st in
          match fst q with
          | Err e => (Err e, snd q)
          | Ok a => let t := str_text (a ++ rest (length ks - max_el)) in
                    (Ok t, match the_obj (snd q) n with
                           | Some o' => set_obj (snd q) n {| p_cls := p_cls o'; p_data := p_data o'; p_val := p_val o'; p_repr := p_repr o'; p_str := Some t |}
                           | None => snd q
                           end)
          end
      end
    end.

  (** object.py:99-102, 202 and collection.py:115-126: the members of a dictionary that its type [c], not a class of objects, serialises when
      no list of excluded members is given; [ObjectProtocol._serialize] always gives one (collection_protocol.py:84-86) *)
  Definition serialized_members (c : pcls) (st : pst) (d : dict string (option pval)) : list string := print_order c (s_excl st) d.

  (** what happens to objects *)
  Inductive pop :=
  | ORepr (n : nat) | OStr (n : nat)
  | OAssign (n : nat) (k : string) (v : option pval)     (* a declared member, changed: collection_protocol.py:164-178 *)
  | OAdd (n : nat) (k : string) (v : option pval)        (* a member that is not declared: object_protocol.py:433 *)
  | ORead (n : nat) (k : string) (v : option pval) (expr : bool).   (* a member, an expression or not, is evaluated to [v]: 180-188 *)
  Definition step (fuel : nat) (op : pop) (st : pst) : pst :=
    match op with
    | ORepr n => snd (repr fuel n st)
    | OStr n => snd (to_str fuel n st)
    | OAssign n k v => match the_obj st n with
        | Some o => set_obj st n {| p_cls := p_cls o; p_data := dset k v (p_data o); p_val := dset k None (p_val o); p_repr := None; p_str := None |}
        | None => st end
    | OAdd n k v => match the_obj st n with
        | Some o => set_obj st n {| p_cls := p_cls o; p_data := dset k v (p_data o); p_val := dset k v (p_val o); p_repr := p_repr o; p_str := p_str o |}
        | None => st end
    | ORead n k v expr => match the_obj st n with
        | Some o => set_obj st n {| p_cls := p_cls o; p_data := if expr then p_data o else dset k v (p_data o); p_val := dset k v (p_val o); p_repr := p_repr o; p_str := p_str o |}
        | None => st end
    end.
  Definition run (fuel : nat) (ops : list pop) (st : pst) : pst := fold_left (fun s op => step fuel op s) ops st.
End Printing.
