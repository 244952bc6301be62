(** Casting classes, ngoschema/utils/utils.py: class_casted_as 530-538; class properties, ngoschema/decorators.py:
    ClassPropertyDescriptor 280-302, classproperty 305-309. *)
From Verif Require Export Base.
Local Open Scope list_scope.

(** * class_casted_as *)
(** [k.startswith('_')] *)
Definition underscored (k : string) : bool := match k with String c _ => beq c "_"%char | EmptyString => false end.

Section Cast.
  Variable V : Type.
  (** [__dict__] and [__mro__] of each class *)
  Variable own : nat -> dict string V.
  Variable mro : nat -> list nat.

  (** [dict(ReadOnlyChainMap( *ds))] (utils.py:52-58, 77-83): the keys map by map, with the value of the first map having them *)
  Fixpoint chain_get (k : string) (ds : list (dict string V)) : option V :=
    match ds with [] => None | d :: ds' => match dget k d with Some v => Some v | None => chain_get k ds' end end.
  Fixpoint chain_items (ks : list string) (ds : list (dict string V)) : dict string V :=
    match ks with
    | [] => []
    | k :: ks' => match chain_get k ds with Some v => (k, v) :: chain_items ks' ds | None => chain_items ks' ds end
    end.
  Definition chain_dict (ds : list (dict string V)) : dict string V := chain_items (dedup (flat_map dkeys ds)) ds.
  (** [attrs.update(…)] *)
  Fixpoint update (d : dict string V) (e : dict string V) : dict string V :=
    match e with [] => d | (k, v) :: e' => update (dset k v d) e' end.

  (** the class made: its own attributes and its base (538). Simplification: [type(...)] keeps the attributes given; their
      metaclass is [type] *)
  Record made := { m_attrs : dict string V; m_base : nat }.
  (** 530-538 *)
  Definition class_casted_as (cls other : nat) : res made :=
    if mem other (mro cls) then
      let attrs := chain_dict (map own (filter (fun b => negb (mem b (mro other))) (mro cls))) in
      Ok {| m_attrs := update attrs (filter (fun kv => negb (underscored (fst kv))) (chain_dict (map own (mro other)))); m_base := other |}
    else Err AttributeError.
  (** reading an attribute of the class made: the class itself, then those of its base in order *)
  Definition made_get (m : made) (k : string) : option V :=
    match dget k (m_attrs m) with Some v => Some v | None => chain_get k (map own (mro (m_base m))) end.
End Cast.
Arguments m_attrs {V}. Arguments m_base {V}.

(** * Class properties *)
Section ClassProperty.
  Variable V : Type.
  (** what a class has under the name of the property: the property with its getter and setter, or a value put in its place.
      The functions receive the class, and work on a state *)
  Variable S : Type.
  Inductive slot := Prop_ (fget : nat -> S -> res V * S) (fset : option (nat -> V -> S -> res unit * S)) | Plain_ (v : V).
  (** the class where each class finds the name: its own [slot], or that of its bases in order *)
  Fixpoint find_slot (cs : list nat) (slots : dict nat slot) : option slot :=
    match cs with [] => None | c :: cs' => match dget c slots with Some s => Some s | None => find_slot cs' slots end end.

  Variable mro : nat -> list nat.
  (** the classes with the name, and the state *)
  Record world := { w_slots : dict nat slot; w_state : S }.
  (** who is asked: a class, or an instance of one *)
  Inductive who := Cls (c : nat) | Obj (c : nat).
  Definition class_of (w : who) : nat := match w with Cls c | Obj c => c end.
  (** 286-289; 288: an instance asked directly has its type as class *)
  Definition prop_get (x : who) (w : world) : res V * world :=
    match find_slot (mro (class_of x)) (w_slots w) with
    | None => (Err AttributeError, w)
    | Some (Plain_ v) => (Ok v, w)
    | Some (Prop_ fget _) => let (r, s) := fget (class_of x) (w_state w) in (r, {| w_slots := w_slots w; w_state := s |})
    end.
  (** 291-295: on an instance. On a class Python asks the metaclass only: the name is replaced in the class. Simplification: a plain
      value is not hidden by an attribute of the instance *)
  Definition prop_set (x : who) (v : V) (w : world) : res unit * world :=
    match x with
    | Cls c => (Ok tt, {| w_slots := dset c (Plain_ v) (w_slots w); w_state := w_state w |})
    | Obj c =>
        match find_slot (mro c) (w_slots w) with
        | Some (Prop_ _ (Some fset)) => let (r, s) := fset c v (w_state w) in (r, {| w_slots := w_slots w; w_state := s |})
        | Some (Prop_ _ None) => (Err AttributeError, w)
        | Some (Plain_ _) | None => (Ok tt, w)
        end
    end.
End ClassProperty.
Arguments Prop_ {V S}. Arguments Plain_ {V S}. Arguments w_slots {V S}. Arguments w_state {V S}.
