(** The class a foreign key refers to, its keys and their types: ngoschema/protocols/type_protocol.py: TypeProtocol.build 54-68 (keys
    declared in a schema); ngoschema/types/foreign_key.py: ForeignKey.__init__ 59-64, set_foreignSchema 66-78, set_foreignClass 80-92,
    get_foreignClass 94-101; ngoschema/protocols/type_proxy.py: proxy_type 33-36; ngoschema/managers/type_builder.py: load 100-106.
    Simplifications: one foreign schema, which is an absolute text; the key is one owner of its attributes (type or instance). *)
From Verif Require Export Fkey_Model.
Local Open Scope list_scope.

(** a type of a key: the default Integer (foreign_key.py:56), or what a class says of an item *)
Inductive ktype := KInteger | KItem (n : nat).
(** a class: its identity, whether it implements Entity, [_primaryKeys], and [_items_type] *)
Record cls := { c_n : nat; c_entity : bool; c_pk : list string; c_type : string -> res ktype }.
(** the foreign schema for [type_builder.load]: no type can be made of it, or it is under construction (then a stand-in is given, with what
    it says of the type of an item), or its class is there *)
Inductive status := Unknown (e : exn) | Building (stand : string -> res ktype) | Built (c : cls).

(** [_foreignClass]: a stand-in, the class of all objects ObjectProtocol, or a class *)
Inductive fclass := FStand | FAny | FCls (c : cls).
Record fkey := { f_schema : bool; f_class : option fclass; f_keys : list string; f_types : list ktype }.
(** the 'foreignKey' keyword: whether it has a 'foreignSchema', and its 'foreignKeys' *)
Record decl := { d_schema : bool; d_keys : option (list string) }.
Definition keys_or (d : decl) (default : list string) : list string := match d_keys d with Some ks => ks | None => default end.
Fixpoint types_of (f : string -> res ktype) (ks : list string) : res (list ktype) :=
  match ks with [] => Ok [] | k :: ks' => do t <- f k; do ts <- types_of f ks'; Ok (t :: ts) end.
(** foreign_key.py:52-57, the attributes of the class ForeignKey *)
Definition fresh : fkey := {| f_schema := false; f_class := None; f_keys := ["id"%string]; f_types := [KInteger] |}.

(** type_protocol.py:54-68. [scope(None, id)] (57) raises TypeError; when [load] raises, [fc] has no value in the assertion (67); [_schema]
    is a dictionary, which has no attribute 'primaryKeys', hence ['id'] (62) *)
Definition fk_build (d : decl) (st : status) : res fkey :=
  if negb (d_schema d) then Err TypeError else
  match st with
  | Unknown _ => Err UnboundLocalError
  | Building stand =>
      let ks := keys_or d ["id"%string] in
      match types_of stand ks with
      | Ok ts => Ok {| f_schema := true; f_class := Some FStand; f_keys := ks; f_types := ts |}
      | Err _ => Ok {| f_schema := true; f_class := Some FStand; f_keys := ks; f_types := f_types fresh |}
      end
  | Built c =>
      let ks := keys_or d ["id"%string] in
      match types_of (c_type c) ks with
      | Ok ts => Ok {| f_schema := true; f_class := Some (FCls c); f_keys := ks; f_types := ts |}
      | Err _ => Err AssertionError
      end
  end.

(** foreign_key.py:80-92, with what was set when an exception is raised *)
Definition set_class (d : decl) (f : fkey) (st : status) : fkey :=
  match st with
  | Built c =>
      if c_entity c then
        let ks := keys_or d (c_pk c) in
        {| f_schema := f_schema f; f_class := Some (FCls c); f_keys := ks;
           f_types := match types_of (c_type c) ks with Ok ts => ts | Err _ => f_types f end |}
      else f                                                                                           (* 85-87 *)
  | Building _ | Unknown _ => f
  end.
(** foreign_key.py:66-78: exceptions are logged *)
Definition set_schema (d : decl) (f : fkey) (st : status) : fkey :=
  set_class d {| f_schema := true; f_class := Some FAny; f_keys := f_keys f; f_types := f_types f |} st.
(** foreign_key.py:59-64: a key made by calling ForeignKey *)
Definition fk_init (d : decl) (st : status) : fkey := if d_schema d then set_schema d fresh st else fresh.

(** foreign_key.py:94-101 *)
Definition get_class (d : decl) (f : fkey) (st : status) : fkey :=
  match f_class f with
  | Some FStand =>
      {| f_schema := f_schema f; f_class := match st with Built c => Some (FCls c) | _ => None end; f_keys := f_keys f; f_types := f_types f |}
  | Some _ => f
  | None => if f_schema f then set_schema d f st else f
  end.

(** what happens: the schema gets another status, or the key is used *)
Inductive event := Becomes (st : status) | Use.
Definition step (d : decl) (s : fkey * status) (e : event) : fkey * status :=
  match e with Becomes st => (fst s, st) | Use => (get_class d (fst s) (snd s), snd s) end.
Definition after (d : decl) (s : fkey * status) (h : list event) : fkey * status := fold_left (step d) h s.

(** foreign_key.py:103-118: the class asked for is the one of [get_foreignClass]; [isa n v]: [v] is an instance of the class [n]; an instance
    of any class of objects is one of ObjectProtocol; [attr k v]: [getattr(v, k)] *)
Section Convert.
  Variable conv : ktype -> pyval -> res pyval.
  Variable isa : nat -> pyval -> bool.
  Variable object : pyval -> bool.
  Variable attr : string -> pyval -> res pyval.
  Fixpoint attrs_of (ks : list string) (v : pyval) : res (list pyval) :=
    match ks with [] => Ok [] | k :: ks' => do x <- attr k v; do xs <- attrs_of ks' v; Ok (x :: xs) end.
  Definition instance_of (fc : option fclass) (v : pyval) : bool :=
    match fc with Some (FCls c) => isa (c_n c) v | Some FAny => object v | _ => false end.
  Definition fk_convert (d : decl) (f : fkey) (st : status) (v : pyval) : res pyval :=
    let f' := match v with VNone => f | _ => get_class d f st end in
    fkey_convert conv (fun v => if instance_of (f_class f') v then Some (attrs_of (f_keys f') v) else None) (f_types f') v.
End Convert.
