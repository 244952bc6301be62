(** The cache of the names of properties: ObjectProtocol._properties_raw_trans, ngoschema/protocols/object_protocol.py:259-287, which keeps
    its answers in a dictionary held by a class attribute. Attributes of a class are inherited, so the test of line 262 finds the
    dictionary of a base class, if that has one already. *)
From Verif Require Export Alias_Model.

(** the classes: their names (Alias_Model), and the classes they inherit from, in the order of their [__mro__], down to ObjectProtocol,
    whose own attribute is None (259) *)
Record classes := { cl_names : nat -> names; cl_bases : nat -> list nat }.
(** the dictionaries the classes hold themselves *)
Definition caches := dict nat (dict string (string * string)).

Section Cache.
  Variable w : classes.

  Definition mro (c : nat) : list nat := c :: cl_bases w c.
  (** the class whose dictionary [cls.__properties_raw_trans] is; None when the attribute is None *)
  Definition owner (st : caches) (c : nat) : option nat := find (fun k => dmem k st) (mro c).
  (** 260-287. The entry of a name that means nothing is not kept (286). *)
  Definition look_up (st : caches) (c : nat) (name : string) : option (string * string) * caches :=
    let (o, st1) := match owner st c with Some o => (o, st) | None => (c, dset c [] st) end in        (* 262-263 *)
    let cache := match dget o st1 with Some m => m | None => [] end in
    match dget name cache with
    | Some r => (Some r, st1)                                                                         (* 264-266 *)
    | None => match raw_trans (cl_names w c) name with
              | Some r => (Some r, dset o (dset name r cache) st1)
              | None => (None, st1)
              end
    end.
  (** [d[key] = v] and [d[key]] for an instance of class [c] holding the items [d] (402, 427) *)
  Definition item_set (st : caches) (c : nat) (key : string) (v : pyval) (d : dict string pyval) : res (dict string pyval) * caches :=
    let (rt, st1) := look_up st c key in (alias_set_by (cl_names w c) rt key v d, st1).
  Definition item_get (st : caches) (c : nat) (key : string) (d : dict string pyval) : res pyval * caches :=
    let (rt, st1) := look_up st c (get_key (cl_names w c) key) in (alias_get_by (cl_names w c) rt key d, st1).

  (** the lookups of a program, in order: the class and the name. No other code touches the dictionaries. *)
  Fixpoint run (st : caches) (h : list (nat * string)) : caches :=
    match h with [] => st | (c, k) :: h' => run (snd (look_up st c k)) h' end.
  Definition after (h : list (nat * string)) (c : nat) (name : string) : option (string * string) := fst (look_up (run [] h) c name).
End Cache.
