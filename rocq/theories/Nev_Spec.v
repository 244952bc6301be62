(** What evaluating a nested value means *)
From Verif Require Import Nev_Model.

(** the type of the property [k]: declared, else by pattern, else that of the additional properties *)
Inductive PropType (o : ocfg) (k : string) : nat -> Prop :=
| pt_declared t : dget k (o_props o) = Some t -> PropType o k t
| pt_pattern l1 p t l2 : dget k (o_props o) = None -> o_pats o = l1 ++ (p, t) :: l2 -> (forall q, In q l1 -> fst q k = false) -> p k = true -> PropType o k t
| pt_additional t : dget k (o_props o) = None -> (forall q, In q (o_pats o) -> fst q k = false) -> o_add o = Some t -> PropType o k t.
(** the type of the item at position [i] *)
Inductive ElemType (a : acfg) (i : nat) : nat -> Prop :=
| et_all t : a_items a = inl t -> ElemType a i t
| et_listed l t : a_items a = inr l -> nth_error l i = Some t -> ElemType a i t.
Definition Named (o : ocfg) (l : list (string * pyval)) : Prop := forall k, In k (dkeys l) -> exists t, PropType o k t.
(** the members in the order in which they are stored: the required ones, null when missing, then the others *)
Definition arranged (req : list string) (l : list (string * pyval)) : list (string * pyval) :=
  map (fun k => (k, match dget k l with Some v => v | None => VNone end)) req ++ filter (fun kv => negb (mem (fst kv) req)) l.
Definition as_sequence (tuple : bool) (l : list pyval) : pyval := if tuple then VTup l else VList l.

Section Meaning.
  Variable tys : nat -> node.

  (** [Converted t v w]: each scalar is converted by its type, nulls and untyped items stay *)
  Inductive Converted : nat -> pyval -> pyval -> Prop :=
  | conv_scal t s v w : tys t = NScal s -> sc_conv s v = Ok w -> Converted t v w
  | conv_obj t o v l l' : tys t = NObj o -> to_dict v = Ok l -> Named o l ->
      ConvProps o l l' -> Converted t v (VDict (arranged (o_req o) l'))
  | conv_arr t a v l l' : tys t = NArr a -> to_list v = Ok l -> ConvElems a 0 l l' -> Converted t v (as_sequence (a_tuple a) l')
  with ConvProps : ocfg -> list (string * pyval) -> list (string * pyval) -> Prop :=
  | cp_nil o : ConvProps o [] []
  | cp_null o k l l' : ConvProps o l l' -> ConvProps o ((k, VNone) :: l) ((k, VNone) :: l')
  | cp_cons o k v t w l l' : v <> VNone -> PropType o k t -> Converted t v w -> ConvProps o l l' -> ConvProps o ((k, v) :: l) ((k, w) :: l')
  with ConvElems : acfg -> nat -> list pyval -> list pyval -> Prop :=
  | ce_nil a i : ConvElems a i [] []
  | ce_null a i l l' : ConvElems a (S i) l l' -> ConvElems a i (VNone :: l) (VNone :: l')
  | ce_cons a i v t w l l' : v <> VNone -> ElemType a i t -> Converted t v w -> ConvElems a (S i) l l' -> ConvElems a i (v :: l) (w :: l')
  | ce_extra a i v l l' : v <> VNone -> (forall t, ~ ElemType a i t) -> ConvElems a (S i) l l' -> ConvElems a i (v :: l) (v :: l').

  (** what is required of an object or an array as a whole *)
  Definition GoodObj (o : ocfg) (l : list (string * pyval)) : Prop :=
    (forall k, In k (o_req o) -> In k (dkeys l)) /\ o_js o (VDict l) = Ok tt.
  Definition GoodArr (a : acfg) (v : pyval) (l : list pyval) : Prop :=
    a_js a v = Ok tt /\ (a_unique a = true -> forall x, In x l -> Query_Model.hashable x = true).
  (** [Checked t v w]: nulls are replaced by defaults, everything is as required, at every depth *)
  Inductive Checked : nat -> pyval -> pyval -> Prop :=
  | ck_null t : default_of tys t = VNone -> Checked t VNone VNone
  | ck_default t d w : default_of tys t = d -> d <> VNone -> Checked t d w -> Checked t VNone w
  | ck_scal t s v : v <> VNone -> tys t = NScal s -> sc_val s v = Ok tt -> Checked t v v
  | ck_obj t o l l' : tys t = NObj o -> CheckedProps o l l' -> GoodObj o l' -> Checked t (VDict l) (VDict l')
  | ck_arr t a l l' : tys t = NArr a -> CheckedElems a 0 l l' -> GoodArr a (VList l') l' -> Checked t (VList l) (VList l')
  | ck_tuple t a : tys t = NArr a -> a_js a (VTup []) = Ok tt -> Checked t (VTup []) (VTup [])
  with CheckedProps : ocfg -> list (string * pyval) -> list (string * pyval) -> Prop :=
  | ckp_nil o : CheckedProps o [] []
  | ckp_cons o k v t w l l' : PropType o k t -> Checked t v w -> CheckedProps o l l' -> CheckedProps o ((k, v) :: l) ((k, w) :: l')
  with CheckedElems : acfg -> nat -> list pyval -> list pyval -> Prop :=
  | cke_nil a i : CheckedElems a i [] []
  | cke_cons a i v t w l l' : ElemType a i t -> Checked t v w -> CheckedElems a (S i) l l' -> CheckedElems a i (v :: l) (w :: l').

  (** the value of [v] for the type [t] *)
  Inductive Evaluated (t : nat) : pyval -> pyval -> Prop :=
  | ev_null : default_of tys t = VNone -> Evaluated t VNone VNone
  | ev_default d w1 w : default_of tys t = d -> d <> VNone -> Converted t d w1 -> Checked t w1 w -> Evaluated t VNone w
  | ev_value v w1 w : v <> VNone -> Converted t v w1 -> Checked t w1 w -> Evaluated t v w.
End Meaning.

(** ** places in a nested value; the item at position [i] is that of [list(v)] *)
Inductive step := Key (k : string) | Pos (i : nat).
Inductive At : pyval -> list step -> pyval -> Prop :=
| at_here v : At v [] v
| at_key l k v p x : dget k l = Some v -> At v p x -> At (VDict l) (Key k :: p) x
| at_pos u l i v p x : to_list u = Ok l -> nth_error l i = Some v -> At v p x -> At u (Pos i :: p) x.
(** the type found at a place *)
Inductive TypeAt (tys : nat -> node) : nat -> list step -> nat -> Prop :=
| ta_here t : TypeAt tys t [] t
| ta_key t o k u p t' : tys t = NObj o -> PropType o k u -> TypeAt tys u p t' -> TypeAt tys t (Key k :: p) t'
| ta_pos t a i u p t' : tys t = NArr a -> ElemType a i u -> TypeAt tys u p t' -> TypeAt tys t (Pos i :: p) t'.
