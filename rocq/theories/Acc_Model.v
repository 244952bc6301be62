(** Values and accessors a class body gives to properties: ObjectProtocol.build, ngoschema/protocols/object_protocol.py:594-597,
    663-734, 742-757. The rest of [build] is in Build_Model and At_Model.
    Simplifications: no base waiting for another type (proxies); the dependencies declared on accessors are left out, as is the
    decoration of methods (648); attribute lookup in a class goes through its bases depth first, which is Python's order when
    no ancestor is shared; it does not see the descriptors. *)
From Verif Require Export Base PyVal.
From Verif Require Build_Model.
Local Open Scope string_scope.
Local Open Scope list_scope.

(** a class attribute: a function, class method or bound method ([is_symbol], 653-657), or a value *)
Inductive attr := ASym (f : nat) | AVal (v : pyval).
(** a property type: its schema but for the default, and [_default] (None when it has none) *)
Record pty := { ty_schema : nat; ty_default : pyval }.
Inductive access := Get | Set_ | Del.
(** PropertyDescriptor (57-64) *)
Record desc := { ds_type : pty; ds_acc : access -> option attr }.
(** a class body and its schema: attributes, the keywords of the schema by name, the properties it declares; [d_open]: those
    declared by the schema true or false *)
Record cdef := { d_attrs : dict string attr; d_schema : dict string pyval; d_props : dict string pty; d_open : list string }.
(** a class: its own attributes, [_properties], [_propertiesWithDefault], [_propertiesDescriptor], its Python bases *)
Inductive klass := Klass (attrs : dict string attr) (props : dict string pty) (defaults : list string) (descs : dict string desc)
                         (bases : list klass).
Definition k_attrs (k : klass) := match k with Klass a _ _ _ _ => a end.
Definition k_props (k : klass) := match k with Klass _ p _ _ _ => p end.
Definition k_defaults (k : klass) := match k with Klass _ _ d _ _ => d end.
Definition k_descs (k : klass) := match k with Klass _ _ _ d _ => d end.

(** config/settings.py:99-101 *)
Definition def_keys : list string :=
  ["type"; "extends"; "dependencies"; "aliases"; "negatedAliases"; "notSerialized"; "notValidated"; "default"; "required"; "readOnly";
   "properties"; "patternProperties"; "additionalProperties"; "primaryKeys"; "$defs"; "items"; "convert"; "validate"; "serialize"].
(** config/settings.py:164-166 *)
Definition prefix (a : access) : string := match a with Get => "get_" | Set_ => "set_" | Del => "del_" end.

(** [getattr(b, name)] *)
Fixpoint find_attr (name : string) (k : klass) : option attr :=
  match k with
  | Klass attrs _ _ _ bases =>
      match dget name attrs with
      | Some a => Some a
      | None => (fix first (l : list klass) : option attr :=
                   match l with [] => None | b :: l' => match find_attr name b with Some a => Some a | None => first l' end end) bases
      end
  end.
(** the first of several classes that has it (694-695) *)
Fixpoint first_attr (name : string) (l : list klass) : option attr :=
  match l with [] => None | b :: l' => match find_attr name b with Some a => Some a | None => first_attr name l' end end.
(** what counts as true *)
Definition holds (a : option attr) : option attr :=
  match a with Some (AVal v) => if truthy v then a else None | _ => a end.
(** what is not None *)
Definition some_val (v : option pyval) : option pyval := match v with Some VNone => None | _ => v end.

Section Build.
  Variable clean : string -> string.                 (* clean_js_name *)
  Variable accepts : nat -> pyval -> bool.           (* ptype.check(v, raw_literals, convert), 678 *)
  Variable store : nat -> pyval -> pyval.            (* the converted and serialized value, 679-681 *)

  (** 671-676: the value given to a property by the body, else by a keyword of the schema with its name *)
  Definition given_value (schema : dict string pyval) (body : option attr) (p : string) : option pyval :=
    match some_val (match body with Some (AVal v) => Some v | _ => None end) with
    | Some v => Some v
    | None => if mem p def_keys then None else some_val (dget p schema)
    end.
  (** 690-696: the accessor of the body, else of the first base *)
  Definition accessor (attrs : dict string attr) (bases : list klass) (p : string) (a : access) : option attr :=
    let name := (prefix a ++ clean p)%string in
    match holds (dget name attrs) with
    | Some f => Some f
    | None => holds (first_attr name bases)
    end.
  (** 709-710 with managers/type_builder.py:70-80, 96: building the type of a property again, with the default; a property the class
      declares has been built under the same name (591), and that type is returned; not so for true and false, which are not
      registered. Simplification: each class is built once. *)
  Definition rebuilt (registered : bool) (t : pty) (v : pyval) : pty :=
    if registered then t else {| ty_schema := ty_schema t; ty_default := store (ty_schema t) v |}.
  Definition is_registered (d : cdef) (p : string) : bool := dmem p (d_props d) && negb (mem p (d_open d)).
  (** 665-706: over all the properties; gives the attributes left, the redefined types and the accessors *)
  Fixpoint collect (registered : string -> bool) (schema : dict string pyval) (bases : list klass) (props : list (string * pty)) (attrs : dict string attr)
      : res (dict string attr * dict string pty * dict string (access -> option attr)) :=
    match props with
    | [] => Ok (attrs, [], [])
    | (p, t) :: props' =>
        let body := dget (clean p) attrs in
        let attrs := ddel (clean p) attrs in                                                              (* 671 *)
        let acc := accessor attrs bases p in
        do extra <- match given_value schema body p with
                    | None => Ok []
                    | Some v => if accepts (ty_schema t) v
                                then Ok [(p, rebuilt (registered p) t v)]
                                else Err InvalidValue                                                     (* 687-688 *)
                    end;
        do r <- collect registered schema bases props' attrs;
        let '(left_, extras, accs) := r in Ok (left_, extra ++ extras, (p, acc) :: accs)
    end.
  (** [d.update(e)] *)
  Definition update {V} (d e : dict string V) : dict string V := fold_left (fun acc kv => dset (fst kv) (snd kv) acc) e d.
  (** [ptype.has_default()] (type_protocol.py:96-98) *)
  Definition has_default (t : pty) : bool := truthy (ty_default t).

  (** [pybases]: the bases of the class statement (537-538); [extended]: the classes of the keyword [extends] *)
  Definition build (d : cdef) (pybases extended : list klass) : res klass :=
    let pbases := pybases ++ extended in
    let all := Build_Model.chain (d_props d) (map k_props pbases) in                                      (* 597 *)
    do r <- collect (is_registered d) (d_schema d) pybases all (d_attrs d);
    let '(left_, extras, accs) := r in
    let local := update (d_props d) extras in                                                             (* 709-711 *)
    let own_descs := map (fun pt : string * pty => (fst pt, {| ds_type := snd pt; ds_acc := match dget (fst pt) accs with Some f => f | None => fun _ => None end |}))
                         local in                                                                         (* 717-729 *)
    Ok (Klass left_
          (Build_Model.chain local (map k_props pbases))                                                  (* 747-748 *)
          (dedup (concat (map k_defaults pbases) ++ dkeys extras ++ dkeys (filter (fun pt => has_default (snd pt)) local)))
          (Build_Model.chain own_descs (map k_descs pbases))                                              (* 753-754 *)
          (pybases ++ extended)).                                                                         (* 786 *)

  (** a line of classes with one base each, the most derived first; the last one derives from [root] *)
  Fixpoint build_line (root : klass) (ds : list cdef) : res klass :=
    match ds with
    | [] => Ok root
    | d :: ds' => do k <- build_line root ds'; build d [k] []
    end.
End Build.
