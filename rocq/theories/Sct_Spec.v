(** What the schemas say about a scalar type. *)
From Verif Require Import Sct_Model.
Local Open Scope string_scope.
Local Open Scope list_scope.

Section Spec.
  Variable docs : dict string sch.
  (** the schema [id] gives the keyword [k] the value [v]: itself, or else by the schema it refers to *)
  Inductive Given : string -> string -> pyval -> Prop :=
  | given_here id s k v : dget id docs = Some s -> k <> "$ref" -> dget k s = Some v -> Given id k v
  | given_there id s r k v : dget id docs = Some s -> dget k s = None -> dget "$ref" s = Some (VStr r) -> Given r k v -> Given id k v.

  Definition NoDefault (id : string) : Prop := forall v, ~ Given id "default" v.
  (** the default: the one given; or else the first value of the nearest enumeration *)
  Inductive DefaultOf : string -> pyval -> Prop :=
  | default_given id v : Given id "default" v -> DefaultOf id v
  | default_first id s v l : NoDefault id -> dget id docs = Some s -> dget "enum" s = Some (VList (v :: l)) -> DefaultOf id v
  | default_there id s r v : NoDefault id -> dget id docs = Some s -> (forall x l, dget "enum" s <> Some (VList (x :: l))) ->
      dget "$ref" s = Some (VStr r) -> DefaultOf r v -> DefaultOf id v.

  (** [id] refers to another schema and has keywords of its own *)
  Definition Refines (id : string) : Prop := exists s r, dget id docs = Some s /\ dget "$ref" s = Some (VStr r) /\ ddel "$ref" s <> [].
  (** the schema whose type [id] is: itself, or the one it only refers to *)
  Inductive Stands : string -> string -> Prop :=
  | stands_here id s : dget id docs = Some s -> (dget "$ref" s = None \/ ddel "$ref" s <> []) -> Stands id id
  | stands_there id s r id' : dget id docs = Some s -> dget "$ref" s = Some (VStr r) -> ddel "$ref" s = [] -> Stands r id' -> Stands id id'.

  (** the classes there are before any schema is read: linearisations start with the class and stay among them; the registered types say
      nothing but their name; no default *)
  Record Start (type_ enum_ : nat) (w : tw) : Prop := {
    st_lin : forall n k, nth_error (t_classes w) n = Some k -> (exists l, k_lin k = n :: l) /\ NoDup (k_lin k) /\ forall x, In x (k_lin k) -> x < length (t_classes w);
    st_default : forall n k, nth_error (t_classes w) n = Some k -> k_default k = None;
    st_schema : forall n, n < length (t_classes w) -> forall k, k <> "type" -> dget k (schema_of w n) = None;
    st_types : forall t c, dget t (t_types w) = Some c -> c < length (t_classes w);
    st_known : type_ < length (t_classes w) /\ enum_ < length (t_classes w);
    st_reg : forall id, dmem id docs = true -> dget id (t_reg w) = None
  }.
  (** the schemas use no 'extends', refer to one another, and none is the underscored form of another *)
  Definition Plain (underscore : string -> string) : Prop :=
    (forall id s, dget id docs = Some s -> dget "extends" s = None /\ dwf s) /\
    (forall id s r, dget id docs = Some s -> dget "$ref" s = Some (VStr r) -> dmem r docs = true) /\
    (forall id, dmem id docs = true -> dmem (underscore id) docs = true -> underscore id = id).

  (** types loaded one after the other, each successfully *)
  Inductive Loads (type_ enum_ : nat) (accepts : sch -> bool) (underscore : string -> string) : tw -> tw -> Prop :=
  | loads_none w : Loads type_ enum_ accepts underscore w w
  | loads_one w n id t w1 w2 : load docs type_ enum_ accepts underscore n id w = (Ok t, w1) -> Loads type_ enum_ accepts underscore w1 w2 ->
      Loads type_ enum_ accepts underscore w w2.
End Spec.
