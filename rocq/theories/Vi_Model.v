(** Validating data by a class made of a schema: what ObjectProtocol.build (ngoschema/protocols/object_protocol.py:541-560,
    584-586, 592-606, 742-775) takes from the schema and from the classes it inherits from, and CollectionProtocol._validate
    (protocols/collection_protocol.py:66-70) with Object._validate (types/object.py:214-228), Collection._validate
    (types/collection.py:95-103) and ObjectDeserializer._validate (types/object.py:60-65). The keywords of schemas are those of
    Jv_Model. Simplifications: the base classes are classes made of schemas; they exist already (no proxy); their order is one
    Python accepts; lists given as class attributes (_required, ...) are left out, and so are class attributes turned into
    keywords (626-627); "items=True" given to [validate] is left out (see Object_Model); the data is a mapping. *)
From Verif Require Export Jv_Model.
Local Open Scope list_scope.

(** what a class is declared with: the keywords of its schema, its "notValidated", the Python bases, the "extends" *)
Record cdecl := { cd_own : list jkw; cd_notval : list string; cd_bases : list nat; cd_ext : list nat }.
(** a built class: _required, _properties, _propertiesPattern, _propertiesAdditional, _notValidated, _schema and the classes it
    is a subclass of *)
Record kls := {
  ks_req : list string; ks_names : list string; ks_pats : list string; ks_more : bool; ks_notval : list string;
  ks_schema : list jkw; ks_sups : list nat
}.

Definition required_of (l : list jkw) : list string := flat_map (fun k => match k with KRequired r => r | _ => [] end) l.
(** 606, types/constants.py: the type of [False] is false, any other type is true *)
Definition more_of (l : list jkw) : bool := negb (existsb (fun k => match k with KMore (JBool false) => true | _ => false end) l).
Definition the {A} (f : kls -> list A) (built : list kls) (i : nat) : list A := match nth_error built i with Some k => f k | None => [] end.
(** [issubclass(a, b)] *)
Definition is_sub (built : list kls) (a b : nat) : bool := mem b (the ks_sups built a).
(** [ChainMap(schema, *[b._schema for b in bases])] (742): a keyword of a later map is hidden by one of the same name *)
Definition over (l m : list jkw) : list jkw := l ++ filter (fun k => negb (mem (kname k) (map kname l))) m.
Definition chained (l : list jkw) (ms : list (list jkw)) : list jkw := fold_left over ms l.

Definition build_class (built : list kls) (c : cdecl) : kls :=
  let ext := filter (fun e => negb (existsb (fun b => is_sub built b e) (cd_bases c))) (cd_ext c) in   (* 543-544 *)
  let bases := filter (fun b => negb (existsb (fun e => is_sub built e b) ext)) (cd_bases c) in        (* 545-546 *)
  let pbases := bases ++ ext in                                                                        (* 547 *)
  {| ks_req := required_of (cd_own c) ++ flat_map (the ks_req built) pbases;                           (* 586 *)
     ks_names := names_of (cd_own c) ++ flat_map (the ks_names built) pbases;                          (* 591-597 *)
     ks_pats := patterns_of (cd_own c) ++ flat_map (the ks_pats built) pbases;                         (* 598-600, 751 *)
     ks_more := more_of (cd_own c);                                                                    (* 601, 752 *)
     ks_notval := cd_notval c ++ flat_map (the ks_notval built) pbases;                                (* 585 *)
     ks_schema := chained (cd_own c) (map (the ks_schema built) bases);                                (* 742 *)
     ks_sups := length built :: flat_map (the ks_sups built) (bases ++ ext) |}.                        (* 784-790 *)
(** the classes are built one after the other *)
Definition build_all (T : list cdecl) : list kls := fold_left (fun built c => built ++ [build_class built c]) T [].

Section Search.
  Variable search : string -> string -> bool.

  Definition unknown (k : kls) (n : string) : bool :=
    negb (mem n (ks_names k)) && negb (existsb (fun p => search p n) (ks_pats k)).
  Definition class_validate (k : kls) (excludes : list string) (d : list (string * pyval)) : res pyval :=
    let excludes := ks_notval k ++ excludes in                                                       (* collection_protocol.py:68 *)
    let excludes := excludes ++ ["required"; "properties"; "propertiesAdditional"; "additionalProperties"]%string in  (* 216 *)
    if existsb (unknown k) (dkeys d) && negb (ks_more k) then Err InvalidValue                       (* 218-224 *)
    else if negb (forallb (fun n => dmem n d) (ks_req k)) then Err InvalidValue                      (* 61-64 *)
    else validate search excludes false (ks_schema k) (VDict d).                                     (* 225-226; 65 *)
  (** [Class.validate(d, excludes=...)] for the i-th class of the table *)
  Definition validate_by (T : list cdecl) (i : nat) (excludes : list string) (d : list (string * pyval)) : res pyval :=
    match nth_error (build_all T) i with Some k => class_validate k excludes d | None => Err NameError end.
End Search.
