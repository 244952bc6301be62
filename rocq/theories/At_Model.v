(** Attributes of objects: ngoschema/protocols/object_protocol.py: ObjectProtocol.__getattr__ 289-321, __setattr__ 369-379, PropertyDescriptor
    __get__ 66-92 and __set__ 94-108, and the attributes a class is built with (650-676, 778-784).
    Items are those of Alias_Model: the value of a property is what is stored.
    Simplifications: classes with one base; no relationships, no accessors (get_..., set_...), no read-only property, no keys with a dot;
    [_propertiesAllowed] does not lose the read-only names; the exceptions are not logged. *)
From Verif Require Export Alias_Model.
Local Open Scope string_scope.
Local Open Scope list_scope.

(** what a class attribute is: the descriptor of a property, a function or class method, anything else (a class, a value) *)
Inductive cattr := CProp (p : string) | CFun (f : string) | CVal (v : string).
(** a class body: its attributes (true for functions and class methods), the names of its inner definitions, its properties *)
Record klass := { k_attrs : dict string bool; k_defs : list string; k_local : list string }.

Section Build.
  Variable clean : string -> string.            (* clean_js_name *)
  Variable protocol : list string.              (* the methods of ObjectProtocol *)

  Definition is_fun (a : option cattr) : bool := match a with Some (CFun _) => true | _ => false end.
  (** attribute lookup in a class: the first class of the chain that has it *)
  Fixpoint class_attr (tabs : list (dict string cattr)) (n : string) : option cattr :=
    match tabs with
    | [] => if mem n protocol then Some (CFun n) else None
    | t :: tabs' => match dget n t with Some a => Some a | None => class_attr tabs' n end
    end.
  (** [all_properties] (595) *)
  Definition all_props (ks : list klass) : list string := flat_map k_local ks.
  (** 671: the attributes named like a property are taken out of the class body, whatever they are *)
  Definition body (props : list string) (k : klass) : dict string cattr :=
    map (fun nb : string * bool => (fst nb, if snd nb then CFun (fst nb) else CVal (fst nb)))
      (filter (fun nb : string * bool => negb (mem (fst nb) (map clean props))) (k_attrs k)).
  (** 778-779 *)
  Definition with_defs (k : klass) (t : dict string cattr) : dict string cattr := fold_left (fun t n => dset n (CVal n) t) (k_defs k) t.
  (** 780-784: [is_mro_symbol] (659-661) looks at the bases, ObjectProtocol and the attributes so far, under the name of the property
      and not the translated one; [setdefault] keeps what is there *)
  Definition install1 (bases : list (dict string cattr)) (t : dict string cattr) (p : string) : dict string cattr :=
    if is_fun (class_attr bases p) || mem p protocol || is_fun (dget p t) then t
    else if dmem (clean p) t then t else t ++ [(clean p, CProp p)].
  Definition table (props : list string) (bases : list (dict string cattr)) (k : klass) : dict string cattr :=
    fold_left (install1 bases) (k_local k) (with_defs k (body props k)).
  (** the tables of a class and of its bases, the class first *)
  Fixpoint tables (ks : list klass) : list (dict string cattr) :=
    match ks with
    | [] => []
    | k :: ks' => let bases := tables ks' in table (all_props ks) bases k :: bases
    end.
End Build.

Section Access.
  Variable n : names.                           (* the names of the class *)
  Variable attr : string -> option cattr.       (* its attributes *)
  Variable orig : list string.                  (* _attributesOrig *)
  Variable required : list string.              (* _required *)
  Variable by_name : option (string -> res pyval).   (* resolve_cname([name]) when _attributeByName (308-310) *)
  Variable fun_value : cattr -> pyval.          (* a method or another class attribute, as read from an object *)

  (** an object: its items, and the private attributes in its own dictionary *)
  Record obj := { o_items : dict string pyval; o_private : dict string pyval }.
  Definition private (name : string) : bool := match name with String "_" _ => true | _ => false end.
  Definition dunder (name : string) : bool := match name with String "_" (String "_" _) => true | _ => false end.
  (** 768-769 *)
  Definition allowed (name : string) : bool :=
    mem name (nm_props n) || dmem name (nm_alias n) || mem name (map snd (nm_alias n)) ||
    dmem name (nm_neg n) || mem name (map snd (nm_neg n)) || dmem name (nm_trans n).
  (** 66-92: without the item [_is_outdated] (collection_protocol.py:191) raises *)
  Definition desc_get (p : string) (o : obj) : res pyval :=
    match dget p (o_items o) with Some v => Ok v | None => Err KeyError end.
  (** object.__getattribute__, when the class has no such attribute *)
  Definition own_get (name : string) (o : obj) : res pyval :=
    match dget name (o_private o) with Some v => Ok v | None => Err AttributeError end.
  (** 289-321. The closure [op] of 297 looks at [name] after lines 298 and 299 have replaced it. *)
  Definition getattr_ (name : string) (o : obj) : res pyval :=
    if (private name || mem name orig) && (dunder name || negb (allowed name)) then own_get name o
    else
      let name1 := or_self (nm_alias n) (or_self (nm_neg n) name) in
      let op := fun r : res pyval => do v <- r; if dmem name1 (nm_neg n) then py_neg v else Ok v in
      let raw := or_self (nm_trans n) name1 in
      if mem raw (nm_props n) then op (desc_get raw o)
      else if nm_additional n && dmem name1 (o_items o) then op (alias_get n name1 (o_items o))
      else match by_name with
           | Some f => op (f name1)
           | None => if negb (nm_additional n) then Err AttributeError
                     else if mem name1 required then Err AttributeError else Ok VNone
           end.
  (** [o.name]: a descriptor of the class, then the object's own dictionary, then the other attributes of the class, then
      __getattr__, which is asked too when the descriptor raises AttributeError *)
  Definition attr_get (name : string) (o : obj) : res pyval :=
    match attr name with
    | Some (CProp p) => match desc_get p o with Err AttributeError => getattr_ name o | r => r end
    | Some a => match dget name (o_private o) with Some v => Ok v | None => Ok (fun_value a) end
    | None => match dget name (o_private o) with Some v => Ok v | None => getattr_ name o end
    end.
  (** [o.name = v] (369-379) *)
  Definition attr_set (name : string) (v : pyval) (o : obj) : res obj :=
    if private name && negb (allowed name) then Ok {| o_items := o_items o; o_private := dset name v (o_private o) |}
    else match alias_set n name v (o_items o) with
         | Ok d => Ok {| o_items := d; o_private := o_private o |}
         | Err KeyError => Err AttributeError
         | Err e => Err e
         end.
  (** [o[name]] and [o[name] = v] *)
  Definition item_get (name : string) (o : obj) : res pyval := alias_get n name (o_items o).
  Definition item_set (name : string) (v : pyval) (o : obj) : res obj :=
    do d <- alias_set n name v (o_items o); Ok {| o_items := d; o_private := o_private o |}.
  (** a program that assigns attributes and items; it catches the exceptions *)
  Inductive aop := ASet (name : string) (v : pyval) | ISet (name : string) (v : pyval).
  Definition astep (o : obj) (x : aop) : obj :=
    match (match x with ASet k v => attr_set k v o | ISet k v => item_set k v o end) with Ok o' => o' | Err _ => o end.
End Access.
