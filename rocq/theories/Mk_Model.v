(** ngoschema/protocols/object_protocol.py: ObjectProtocol.__new__ 156-164; models/instances.py: Entity.__new__ 58-66, __init__ 68-76;
    protocols/collection_protocol.py: CollectionProtocol.__init__ 37-46; session.py: Session.resolve_fkey 77-83 (Fkey_Model).
    Making an object: which class it gets, how often it is initialised and with which data.
    Simplifications: objects given as positional values are not taken as mappings; the data is what [_deserialize] is given, deserialisation
    itself is in Alias_Model and Nev_Model; reading [identityKeys] after the initialisation of an entity (76) is not covered. *)
From Verif Require Export Types_Model Fkey_Model Uri_Model.
Local Open Scope list_scope.
Local Open Scope string_scope.
Local Open Scope list_scope.

Definition data := dict string pyval.
Section Mk.
  Variable sub : nat -> nat -> bool.                (* issubclass, on real subclasses: the metaclass of the built classes is ABCMeta *)
  Variable entity : nat -> bool.                    (* the class inherits Entity *)
  Variable cid : nat -> list ascii.                 (* cls._id *)
  Variable idc : list ascii -> res (list ascii).    (* Id.convert *)
  Variable load : list ascii -> res nat.            (* type_builder.load *)
  Variable inst_class : nat -> nat.                 (* the class and the data of the instances kept by the repositories *)
  Variable inst_data : nat -> data.
  Variable dict_of : pyval -> res data.             (* dict(value) for values that are not mappings *)
  (** the session of the context of the call, if any; a session is the list of its repositories with their instance classes *)
  Variable session : option (list (nat * repo)).

  (** [session or cls._session]: the classes have no attribute _session (collection_protocol.py:35 is a comment) *)
  Definition resolve_key (c : nat) (key : pyval) : res nat :=
    match session with
    | None => Err AttributeError
    | Some s => session_resolve (map (fun kr => (sub (fst kr) c, snd kr)) s) key
    end.
  Definition is_key (v : pyval) : bool := truthy v && negb (is_mapping v).
  (** [data.get('$schema')] and [data.pop('$schema')] *)
  Definition pop_schema (d : data) : option (pyval * data) :=
    match dget "$schema" d with Some s => if truthy s then Some (s, ddel "$schema" d) else None | None => None end.
  (** 158-160; what is left are the caller's own dictionary when it is positional, or the method's copy of the keywords *)
  Definition select (args : list pyval) (kw : data) : option (pyval * (list pyval * data)) :=
    match args with
    | VDict d :: rest => match pop_schema d with Some (s, d') => Some (s, (VDict d' :: rest, kw)) | None => None end
    | _ :: _ => None
    | [] => match pop_schema kw with Some (s, kw') => Some (s, ([], kw')) | None => None end
    end.
  (** [Id.convert(scope(..., cls._id))]: ['#' in uri] raises when it is not a text *)
  Definition schema_id (c : nat) (s : pyval) : res (list ascii) :=
    match s with VStr s => idc (scope (chars s) (cid c)) | _ => Err TypeError end.

  (** the names of the arguments of CollectionProtocol.__init__ (37) *)
  Definition reserved : list string := ["value"; "lazyLoading"; "items"; "validate"; "context"; "session"].
  (** collection_protocol.py:41-45 *)
  Definition init_data (value : pyval) (kw : data) : res data :=
    match value with
    | VNone => Ok (filter (fun kv => negb (mem (fst kv) reserved)) kw)
    | VDict d => Ok d
    | v => dict_of v
    end.
  Definition value_of (args : list pyval) (kw : data) : pyval :=
    match args with v :: _ => v | [] => match dget "value" kw with Some v => v | None => VNone end end.
  (** instances.py:68-75; for the other classes collection_protocol.py:37-46. More positional arguments are options. *)
  Definition init (c : nat) (args : list pyval) (kw : data) : res data :=
    let v := value_of args kw in
    if entity c then
      if is_key v then do j <- resolve_key c v; Ok (inst_data j)
      else init_data v (ddel "primaryKeys" kw)
    else init_data v kw.

  (** an object made: its class, and the data of each initialisation *)
  Record made := { m_class : nat; m_inits : list data }.
  (** calling a class: [type.__call__] calls [__new__] and then, when the object is an instance of the class called, [__init__] with the
      same arguments. Result and the positional arguments as the caller finds them afterwards. *)
  Fixpoint call (fuel : nat) (c : nat) (args : list pyval) (kw : data) : res made * list pyval :=
    match fuel with
    | 0 => (Err OutOfFuel, args)
    | S fuel =>
        match (if entity c then match args with v :: _ => if is_key v then do j <- resolve_key c (VTup args); Ok (inst_class j) else Ok c | [] => Ok c end
               else Ok c) with                                               (* instances.py:59-65 *)
        | Err e => (Err e, args)
        | Ok c1 =>
            let (r, args') :=
              match select args kw with
              | None => (Ok {| m_class := c1; m_inits := [] |}, args)         (* 164 *)
              | Some (s, (args', kw')) =>
                  match schema_id c1 s with
                  | Err e => (Err e, args')
                  | Ok t => if beq t (cid c1) then (Ok {| m_class := c1; m_inits := [] |}, args')
                            else match load t with Err e => (Err e, args') | Ok k => call fuel k args' kw' end   (* 161-163 *)
                  end
              end in
            match r with
            | Err e => (Err e, args')
            | Ok o =>
                if sub (m_class o) c then
                  match init (m_class o) args' kw with
                  | Err e => (Err e, args')
                  | Ok d => (Ok {| m_class := m_class o; m_inits := m_inits o ++ [d] |}, args')
                  end
                else (Ok o, args')
            end
        end
    end.
  Definition make := call 2.
  (** the data of the object afterwards *)
  Definition m_data (o : made) : option data := match rev (m_inits o) with d :: _ => Some d | [] => None end.
End Mk.
