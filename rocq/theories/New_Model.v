(** The data of a new object, and the objects made one after the other: CollectionProtocol.__init__
    (ngoschema/protocols/collection_protocol.py:37-56), ObjectProtocol._deserialize (protocols/object_protocol.py:205-223),
    Object._deserialize (types/object.py:202-213), Collection._deserialize (types/collection.py:71-79), Deserializer._deserialize
    (protocols/serializer.py:38-41). The names are those of Alias_Model, the order that of Object_Model.
    Simplifications: '$schema' (C71 has it) and options are not given; a keyword named 'value' counts as the value; the evaluation that follows (C24) is left out, so that
    what is set is what is stored; no class has a [_default] attribute of its own. *)
From Verif Require Export Alias_Model.
From Verif Require Object_Model.

Record ncls := {
  nc_names : names;                              (* with _properties *)
  nc_defaults : dict string (res pyval);         (* _propertiesWithDefault, with [t.default(raw_literals=True)] *)
  nc_deps : dict string (list string)            (* _dependencies *)
}.

(** collection_protocol.py:37, 41-44: the parameters of __init__, which no keyword can name; the keywords are the data only
    when there is no value *)
Definition reserved : list string := ["lazyLoading"; "items"; "validate"; "context"; "session"]%string.
Definition given (value : option (dict string pyval)) (kw : dict string pyval) : dict string pyval :=
  match value with
  | Some d => d
  | None => filter (fun p => negb (mem (fst p) reserved)) kw
  end.

(** object.py:206-207, 208; the names added are not in the dictionary, so that [update] appends *)
Fixpoint defaults (ds : dict string (res pyval)) (l : dict string pyval) : res (dict string pyval) :=
  match ds with
  | [] => Ok []
  | (k, d) :: ds' =>
      if dmem k l then defaults ds' l else do v <- d; do r <- defaults ds' l; Ok ((k, v) :: r)
  end.
Definition nulls (props : list string) (l : dict string pyval) : dict string pyval :=
  map (fun k => (k, VNone)) (filter (fun k => negb (dmem k l)) props).
(** object.py:209 [(k, value[k]) for k in call_order]: the order is a generator, which may fail after its last name *)
Fixpoint picked (m : dict string pyval) (ks : list string) : res (dict string pyval) :=
  match ks with
  | [] => Ok []
  | k :: ks' => match dget k m with None => Err KeyError | Some v => do r <- picked m ks'; Ok ((k, v) :: r) end
  end.
(** object.py:202-213 with items=False and evaluate=False, after [value or self._default]; object_protocol.py:190-203 with
    items=False uses the dependencies of the class only, and asks [ObjectDeserializer] for the order, which requires nothing *)
Definition fill (c : ncls) (l : dict string pyval) : res (dict string pyval) :=
  do d <- defaults (nc_defaults c) l;
  let m := (l ++ d) ++ nulls (nm_props (nc_names c)) (l ++ d) in
  let order := Object_Model.call_order [] (dkeys m) (nc_deps c) in
  do r <- picked m (fst order); do _ <- snd order; Ok r.

(** What an object keeps its data in: a dictionary of its own, or the one dictionary [Object._default] (object.py:110), which is
    what [value or self._default] of collection.py:73 returns when there is no member at all *)
Inductive data := Own (d : dict string pyval) | Shared.
Definition new_data (c : ncls) (order : list string) (shared : dict string pyval) (value : dict string pyval) : res data :=
  do v <- alias_deserialize (nc_names c) order value;
  do r <- fill c (match v with [] => shared | _ => v end);                            (* object.py:204 copies the default *)
  match r with [] => Ok Shared | _ => Ok (Own r) end.

(** Objects made and changed one after the other. Setting an item that has no descriptor (object_protocol.py:431-434) or a
    property (collection_protocol.py:169-178) stores into [_data]; deleting an item (object_protocol.py:436-444) removes it. *)
Record world := { w_default : dict string pyval; w_objs : list data }.
Inductive op :=
| ONew (c : ncls) (order : list string) (value : option (dict string pyval)) (kw : dict string pyval)
| OSet (i : nat) (k : string) (v : pyval)
| ODel (i : nat) (k : string).
Definition change (f : dict string pyval -> dict string pyval) (i : nat) (w : world) : world :=
  match nth_error (w_objs w) i with
  | None => w
  | Some (Own d) => {| w_default := w_default w; w_objs := firstn i (w_objs w) ++ Own (f d) :: skipn (S i) (w_objs w) |}
  | Some Shared => {| w_default := f (w_default w); w_objs := w_objs w |}
  end.
Definition step (w : world) (o : op) : world :=
  match o with
  | ONew c order value kw =>
      match new_data c order (w_default w) (given value kw) with
      | Ok d => {| w_default := w_default w; w_objs := w_objs w ++ [d] |}
      | Err _ => w
      end
  | OSet i k v => change (dset k v) i w
  | ODel i k => change (ddel k) i w
  end.
Definition run (ops : list op) (w : world) : world := fold_left step ops w.
Definition start : world := {| w_default := []; w_objs := [] |}.
(** the items of the object number [i] *)
Definition content (w : world) (i : nat) : option (dict string pyval) :=
  match nth_error (w_objs w) i with None => None | Some (Own d) => Some d | Some Shared => Some (w_default w) end.
