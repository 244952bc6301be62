(** Serialisation of objects within objects, by [do_serialize] (no deserialisation on the way):
    ngoschema/protocols/collection_protocol.py: CollectionProtocol._serialize 83-86, do_serialize 201-203;
    ngoschema/protocols/object_protocol.py: ObjectProtocol._serialize 446-473; ngoschema/types/collection.py: Collection._serialize
    115-126; ngoschema/types/object.py: _print_order 82-97 and 242-260, _serialize 99-102, _null 200-202; ngoschema/types/array.py:
    ArraySerializer 78-88, _items_types 124-127, _null 167-169; ngoschema/types/constants.py: 29-31, 50-54;
    ngoschema/models/instances.py: Entity._serialize 92-111.
    Simplifications: no aliases and no attribute prefix (Alias_Model has the aliases); a member is null before its evaluation
    exactly when it is null after; reading a member does not raise; the sets of names are gone through in the order of the
    members, required ones first (no statement speaks of the order). *)
From Verif Require Export PyVal.
Local Open Scope list_scope.

(** what is serialised: null, other values without structure, arrays ([Some a]: an instance of the array class [a], [None]: a plain
    list), instances of classes with their members *)
Inductive sv := SNull | SAtom (a : pyval) | SArr (own : option nat) (l : list sv) | SObj (c : nat) (fs : list (string * sv)).
(** the declared type of a member: a type without items, anything (_True), nothing (_False, Null), an array type, a class *)
Inductive sty := TPrim (n : nat) | TAny | TNever | TArr (a : nat) | TObj (c : nat).
(** what is written; [ORaw]: a structured value left as it is; [OTup]: the keys of an entity with several; [OSchema]: the
    identifier of a class *)
Inductive out := ONull | OAtom (a : pyval) | ORaw (v : sv) | OTup (l : list out) | OArr (l : list out) | ODict (l : list (string * out)) | OSchema (c : nat).

(** [_required], [_readOnly], [_notSerialized]; [_items_type]; whether a value of a member equals the default of its type (object.py:248-258);
    [_primaryKeys] of an entity *)
Record scls := {
  so_required : list string; so_readOnly : list string; so_hidden : list string;
  so_type : string -> option sty; so_default : string -> sv -> bool; so_keys : option (list string)
}.
(** [_notSerialized], [_items]: one type or a list of types *)
Record sarr := { sa_hidden : list string; sa_items : sty + list sty }.
(** the options carried down: no_defaults, no_readOnly, use_identity_keys, use_entity_keys, add_identity_keys *)
Record sopts := { s_nd : bool; s_noro : bool; s_ids : bool; s_ent : bool; s_add : bool }.

Definition is_null (v : sv) : bool := match v with SNull => true | _ => false end.
(** a value used without serialising it *)
Definition raw (v : sv) : out := match v with SNull => ONull | SAtom a => OAtom a | _ => ORaw v end.

Section Ser.
  Variable cls : nat -> scls.
  Variable arr : nat -> sarr.
  (** [t._serialize(t, v)] for the types without items *)
  Variable prim : nat -> sv -> res out.
  Variable o : sopts.

  (** serializer.py:20-41 for a name of the collection *)
  Definition included (excl only : list string) (k : string) (v : sv) : bool :=
    negb (mem k excl) && (match only with [] => true | _ => mem k only end) && negb (s_nd o && is_null v).
  (** object.py:82-97, 242-260 *)
  Definition printed {F : Type} (c : nat) (excl only : list string) (fs : list (string * (sv * F))) : list (string * (sv * F)) :=
    let C := cls c in
    let all_ordered := filter (fun kv => mem (fst kv) (so_required C)) fs ++ filter (fun kv => negb (mem (fst kv) (so_required C))) fs in
    filter (fun kv => (mem (fst kv) (so_required C) || included excl only (fst kv) (fst (snd kv)))
                      && negb (s_nd o && so_default C (fst kv) (fst (snd kv)))) all_ordered.

  (** collection.py:120-124: [F] serialises the member *)
  Fixpoint write_members (c : nat) (excl only : list string) (fs : list (string * (sv * (sty -> list string -> res out)))) : res (list (string * out)) :=
    match fs with
    | [] => Ok []
    | (k, (v, f)) :: fs' =>
        match so_type (cls c) k with
        | None => Err KeyError
        | Some t =>
            do w <- (if included excl only k v then f t excl else Ok ONull);
            do r <- write_members c excl only fs'; Ok ((k, w) :: r)
        end
    end.
  (** the names left out while writing an instance of [c], then within its members: [_notSerialized] (collection_protocol.py:85);
      the list is extended in place by the read-only ones (object.py:91-92) *)
  Definition hides (c : nat) (excl : list string) : list string :=
    so_hidden (cls c) ++ excl ++ (if s_noro o then so_readOnly (cls c) else []).
  (** object_protocol.py:446-473: [self] is the class [d] or an instance of it, [value] an instance of [c] *)
  Definition write_object (schema : bool) (d c : nat) (excl only : list string) (fs : list (string * (sv * (sty -> list string -> res out))))
    : res (list (string * out)) :=
    let e := hides c excl in
    let v1 := printed c e only fs in                                        (* object.py:102 *)
    let v2 := printed c e only v1 in                                        (* object.py:202 *)
    do r <- write_members c e only v2;
    Ok (if schema || negb (Nat.eqb c d) then ("$schema"%string, OSchema c) :: ddel "$schema"%string r else r).   (* 468-472 *)

  (** array.py:124-127 *)
  Definition item_type (a : nat) (i : nat) : option sty := match sa_items (arr a) with inl t => Some t | inr ts => nth_error ts i end.
  (** collection.py:120-124: the items without a type stay null *)
  Fixpoint write_items (a : nat) (excl : list string) (i : nat) (l : list (sv * (sty -> list string -> res out))) : res (list out) :=
    match l with
    | [] => Ok []
    | (v, f) :: l' =>
        do w <- (match item_type a i with
                 | Some t => if s_nd o && is_null v then Ok ONull else f t excl
                 | None => Ok ONull
                 end);
        do r <- write_items a excl (S i) l'; Ok (w :: r)
    end.
  Definition write_array (a : nat) (excl : list string) (l : list (sv * (sty -> list string -> res out))) : res out :=
    do r <- write_items a (sa_hidden (arr a) ++ excl) 0 l; Ok (OArr r).

  (** instances.py:88-90 *)
  Fixpoint key_values (fs : list (string * sv)) (ks : list string) : res (list out) :=
    match ks with
    | [] => Ok []
    | k :: ks' => match dget k fs with None => Err KeyError | Some v => do r <- key_values fs ks'; Ok (raw v :: r) end
    end.
  (** 98-100 *)
  Definition identity (c : nat) (fs : list (string * sv)) : res out :=
    match so_keys (cls c) with
    | None => Err AttributeError
    | Some ks => do l <- key_values fs ks; Ok (match l with [x] => x | _ => OTup l end)
    end.
  (** 106-110 *)
  Fixpoint add_keys (fs : list (string * sv)) (ks : list string) (data : list (string * out)) : res (list (string * out)) :=
    match ks with
    | [] => Ok data
    | k :: ks' => match dget k fs with
                  | None => Err KeyError
                  | Some v => add_keys fs ks' (if is_null v then data else dset k (raw v) data)
                  end
    end.
  (** 92-111. [self] is the declared class [d], of which [primaryKeys] is a descriptor without length: TypeError (102);
      a class that is not of entities writes the object *)
  Definition write_entity (d c : nat) (excl : list string) (fs : list (string * sv)) (fs' : list (string * (sv * (sty -> list string -> res out))))
    : res out :=
    match so_keys (cls d) with
    | None => do r <- write_object false d c excl [] fs'; Ok (ODict r)
    | Some ks =>
        if negb (match fs with [] => true | _ => false end) && s_ids o then identity c fs
        else if negb (match fs with [] => true | _ => false end) && s_ent o then Err TypeError
        else do r <- write_object false d c excl [] fs'; do r' <- (if s_add o then add_keys fs ks r else Ok r); Ok (ODict r')
    end.

  (** [t._serialize(t, v, excludes=excl, **opts)] *)
  Fixpoint ser (v : sv) (t : sty) (excl : list string) {struct v} : res out :=
    match v with
    | SObj c fs =>
        let fs' := (fix prep (l : list (string * sv)) := match l with [] => [] | (k, x) :: l' => (k, (x, ser x)) :: prep l' end) fs in
        match t with
        | TPrim n => prim n v
        | TNever => Ok ONull
        | TAny => write_entity c c excl fs fs'                               (* constants.py:52-53: by the class of the value *)
        | TArr _ => Err TypeError
        | TObj d => write_entity d c excl fs fs'
        end
    | SArr own l =>
        let l' := (fix prep (l : list sv) := match l with [] => [] | x :: l' => (x, ser x) :: prep l' end) l in
        match t with
        | TPrim n => prim n v
        | TNever => Ok ONull
        | TAny => match own with Some a => write_array a excl l' | None => Ok (raw v) end
        | TArr a => write_array a excl l'
        | TObj _ => match l with [] => Ok (ODict []) | _ => Err AttributeError end
        end
    | _ =>
        match t with
        | TPrim n => prim n v
        | TNever => Ok ONull
        | TAny => Ok (raw v)
        | TArr _ => Err TypeError
        | TObj d =>                                                          (* object.py:86: (value or {}).keys() *)
            if (match v with SAtom a => truthy a | _ => false end) then Err AttributeError
            else if s_add o && negb (match so_keys (cls d) with None | Some [] => true | _ => false end) then Err TypeError
            else Ok (ODict [])
        end
    end.

  Definition members (fs : list (string * sv)) := map (fun kv => (fst kv, (snd kv, ser (snd kv)))) fs.
  (** [obj.do_serialize(schema=…, only=…, excludes=…, root_entity=…)] for an instance of [c]; here [self] is an instance: an
      entity has its keys (101-104) *)
  Definition do_serialize (schema root_entity : bool) (only excl : list string) (c : nat) (fs : list (string * sv)) : res out :=
    match so_keys (cls c) with
    | None => do r <- write_object schema c c excl only (members fs); Ok (ODict r)
    | Some ks =>
        if negb (match fs with [] => true | _ => false end) && negb root_entity && s_ids o then identity c fs
        else if negb (match fs with [] => true | _ => false end) && negb root_entity && s_ent o then
          match ks with
          | [k] => match dget k fs with
                   | None => Err KeyError
                   | Some v => Ok (ODict [(if beq k "$id"%string then "$ref"%string else k, raw v)])
                   end
          | _ => Err AssertionError
          end
        else do r <- write_object schema c c excl only (members fs); do r' <- (if s_add o then add_keys fs ks r else Ok r); Ok (ODict r')
    end.
End Ser.
