(** Specification vocabulary for Acc_Props: which value, which type and which accessors a property has in a class. *)
From Verif Require Import Acc_Model.
Local Open Scope string_scope.
Local Open Scope list_scope.

Section Spec.
  Variable clean : string -> string.
  Variable store : nat -> pyval -> pyval.

  Definition acc_name (a : access) (p : string) : string := ((match a with Get => "get_" | Set_ => "set_" | Del => "del_" end) ++ clean p)%string.
  (** the keywords that say what a class is, and give no value to a property of the same name *)
  Definition class_keywords : list string :=
    ["type"; "extends"; "dependencies"; "aliases"; "negatedAliases"; "notSerialized"; "notValidated"; "default"; "required"; "readOnly";
     "properties"; "patternProperties"; "additionalProperties"; "primaryKeys"; "$defs"; "items"; "convert"; "validate"; "serialize"].

  (** The class [d] gives the value [v] to the property [p]: as an attribute that is not a method, else as a keyword of its schema. *)
  Inductive Gives (d : cdef) (p : string) : pyval -> Prop :=
  | gives_attr v : dget (clean p) (d_attrs d) = Some (AVal v) -> v <> VNone -> Gives d p v
  | gives_schema v : (forall w, dget (clean p) (d_attrs d) = Some (AVal w) -> w = VNone) ->
      ~ In p class_keywords -> dget p (d_schema d) = Some v -> v <> VNone -> Gives d p v.
  (** The value is taken as default, unless the class declares the property by a schema of its own. *)
  Definition Takes (d : cdef) (p : string) (v : pyval) : Prop := Gives d p v /\ (In p (dkeys (d_props d)) -> In p (d_open d)).
  Definition Keeps (d : cdef) (p : string) : Prop := forall v, ~ Takes d p v.

  (** The type declared for [p]: that of the class, else of its first base that has the property. *)
  Inductive Declared (d : cdef) (bases : list klass) (p : string) : pty -> Prop :=
  | declared_own t : dget p (d_props d) = Some t -> Declared d bases p t
  | declared_base l1 b l2 t : dget p (d_props d) = None -> bases = l1 ++ b :: l2 ->
      (forall b', In b' l1 -> dget p (k_props b') = None) -> dget p (k_props b) = Some t -> Declared d bases p t.

  (** The class has its own say on [p]: it declares it or gives it a value. *)
  Definition Own (d : cdef) (p : string) : Prop := In p (dkeys (d_props d)) \/ exists v, Gives d p v.

  (** an attribute that counts: not a false value *)
  Definition Counts (a : attr) : Prop := match a with ASym _ => True | AVal v => truthy v = true end.
  (** The accessor of the class: its own if it counts, else the first one its Python bases have, if it counts *)
  Inductive Accessor (d : cdef) (pybases : list klass) (p : string) (a : access) : option attr -> Prop :=
  | acc_own f : dget (acc_name a p) (d_attrs d) = Some f -> Counts f -> Accessor d pybases p a (Some f)
  | acc_base l1 b l2 f : (forall f', dget (acc_name a p) (d_attrs d) = Some f' -> ~ Counts f') ->
      pybases = l1 ++ b :: l2 -> (forall b', In b' l1 -> find_attr (acc_name a p) b' = None) ->
      find_attr (acc_name a p) b = Some f -> Counts f -> Accessor d pybases p a (Some f)
  | acc_none : (forall f', dget (acc_name a p) (d_attrs d) = Some f' -> ~ Counts f') ->
      (forall l1 b l2 f, pybases = l1 ++ b :: l2 -> (forall b', In b' l1 -> find_attr (acc_name a p) b' = None) ->
         find_attr (acc_name a p) b = Some f -> ~ Counts f) ->
      Accessor d pybases p a None.

  (** The names can be told apart: two properties of the class have different attribute names, none like an accessor *)
  Definition Apart (names : list string) : Prop :=
    (forall p q, In p names -> In q names -> clean p = clean q -> p = q) /\
    (forall p q a, In p names -> In q names -> clean p <> acc_name a q).

  (** * A line of classes, the most derived first *)
  (** the type of [p]: from the most derived class that declares it or gives it a value *)
  Inductive LineType (root : klass) : list cdef -> string -> pty -> Prop :=
  | lt_root p t : dget p (k_props root) = Some t -> LineType root [] p t
  | lt_declared d ds p t : dget p (d_props d) = Some t -> Keeps d p -> LineType root (d :: ds) p t
  | lt_given d ds p t v : Takes d p v -> dget p (d_props d) = Some t ->
      LineType root (d :: ds) p {| ty_schema := ty_schema t; ty_default := store (ty_schema t) v |}
  | lt_given_base d ds p t v : Takes d p v -> dget p (d_props d) = None -> LineType root ds p t ->
      LineType root (d :: ds) p {| ty_schema := ty_schema t; ty_default := store (ty_schema t) v |}
  | lt_inherited d ds p t : Keeps d p -> dget p (d_props d) = None -> LineType root ds p t -> LineType root (d :: ds) p t.
  (** the function named [name]: from the most derived class that has an attribute of that name *)
  Inductive LineAttr (root : klass) : list cdef -> string -> option attr -> Prop :=
  | la_root n : LineAttr root [] n (find_attr n root)
  | la_own d ds n f : dget n (d_attrs d) = Some f -> LineAttr root (d :: ds) n (Some f)
  | la_base d ds n f : dget n (d_attrs d) = None -> LineAttr root ds n f -> LineAttr root (d :: ds) n f.
  (** the accessor used for [p]: that of the most derived class with its own say on [p], looked up from there *)
  Inductive LineAccess (root : klass) : list cdef -> string -> access -> option attr -> Prop :=
  | lx_root p a ds : dget p (k_descs root) = Some ds -> LineAccess root [] p a (ds_acc ds a)
  | lx_own d ds p a f : Own d p -> LineAttr root (d :: ds) (acc_name a p) f -> LineAccess root (d :: ds) p a f
  | lx_base d ds p a f : ~ Own d p -> LineAccess root ds p a f -> LineAccess root (d :: ds) p a f.
End Spec.
