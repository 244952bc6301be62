(** What a document shows of an object: paths, and the members a path can go through. *)
From Verif Require Export Ser_Model.
Local Open Scope list_scope.

(** a place in a document or in a value *)
Inductive step := PKey (k : string) | PIdx (i : nat).
Fixpoint at_out (w : out) (p : list step) : option out :=
  match p with
  | [] => Some w
  | PKey k :: p' => match w with ODict l => match dget k l with Some x => at_out x p' | None => None end | _ => None end
  | PIdx i :: p' => match w with OArr l => match nth_error l i with Some x => at_out x p' | None => None end | _ => None end
  end.

(** the members of an object have different names, at all depths *)
Inductive Proper : sv -> Prop :=
| P_null : Proper SNull
| P_atom : forall a, Proper (SAtom a)
| P_arr : forall own l, (forall x, In x l -> Proper x) -> Proper (SArr own l)
| P_obj : forall c fs, NoDup (map fst fs) -> (forall k x, In (k, x) fs -> Proper x) -> Proper (SObj c fs).

Section Spec.
  Variable cls : nat -> scls.
  Variable arr : nat -> sarr.
  Variable o : sopts.

  (** [c] is the class of an object found where the type [t] is declared: which class writes it *)
  Definition Writes (t : sty) (c d : nat) : Prop := t = TObj d \/ t = TAny /\ d = c.
  (** objects of the class [d] are written with their members, not by their keys *)
  Definition InFull (d : nat) : Prop := so_keys (cls d) = None \/ s_ids o = false /\ s_ent o = false.
  Definition IsKey (d : nat) (k : string) : Prop := exists ks, so_keys (cls d) = Some ks /\ In k ks.

  (** The path [p] leads from the value [v], where the type [t] is declared and the names [e] are left out, to the value
      [v'], with its type and the names left out there; each member on the way is shown. *)
  Inductive Leads : list string -> sty -> sv -> list step -> list string -> sty -> sv -> Prop :=
  | L_here : forall e t v, Leads e t v [] e t v
  | L_item : forall e t own l a i x t' p e' t2 v',
      t = TArr a \/ t = TAny /\ own = Some a ->
      nth_error l i = Some x ->
      sa_items (arr a) = inl t' \/ (exists ts, sa_items (arr a) = inr ts /\ nth_error ts i = Some t') ->
      (s_nd o = true -> x <> SNull) ->
      Leads (sa_hidden (arr a) ++ e) t' x p e' t2 v' ->
      Leads e t (SArr own l) (PIdx i :: p) e' t2 v'
  | L_member : forall e t c d fs k x t' p e' t2 v',
      Writes t c d -> InFull d ->
      In (k, x) fs -> so_type (cls c) k = Some t' ->
      k <> "$schema"%string \/ c = d -> (s_add o = true -> ~ IsKey d k) ->
      ~ In k e -> ~ In k (so_hidden (cls c)) -> (s_noro o = true -> ~ In k (so_readOnly (cls c))) ->
      (s_nd o = true -> x <> SNull /\ so_default (cls c) k x = false) ->
      Leads (so_hidden (cls c) ++ e ++ (if s_noro o then so_readOnly (cls c) else [])) t' x p e' t2 v' ->
      Leads e t (SObj c fs) (PKey k :: p) e' t2 v'.

  (** Two values that differ only where nothing is shown: in members that are left out, and within entities written by
      their keys. *)
  Inductive Alike : list string -> sty -> sv -> sv -> Prop :=
  | A_same : forall e t v, Alike e t v v
  | A_item : forall e t own a l l',
      t = TArr a \/ t = TAny /\ own = Some a ->
      length l = length l' ->
      (forall i x x' t', nth_error l i = Some x -> nth_error l' i = Some x' ->
         sa_items (arr a) = inl t' \/ (exists ts, sa_items (arr a) = inr ts /\ nth_error ts i = Some t') ->
         (x = SNull <-> x' = SNull) /\ Alike (sa_hidden (arr a) ++ e) t' x x') ->
      Alike e t (SArr own l) (SArr own l')
  | A_object : forall e t c d fs fs',
      Writes t c d -> so_keys (cls d) = None \/ (s_ids o = false /\ s_ent o = false /\ s_add o = false) ->
      map fst fs = map fst fs' ->
      (forall i k x x', nth_error fs i = Some (k, x) -> nth_error fs' i = Some (k, x') ->
         (~ In k (so_required (cls c)) /\
          (In k e \/ In k (so_hidden (cls c)) \/ (s_noro o = true /\ In k (so_readOnly (cls c))))) \/
         ((x = SNull <-> x' = SNull) /\ so_default (cls c) k x = so_default (cls c) k x' /\
          forall t', so_type (cls c) k = Some t' ->
            Alike (so_hidden (cls c) ++ e ++ (if s_noro o then so_readOnly (cls c) else [])) t' x x')) ->
      Alike e t (SObj c fs) (SObj c fs')
  | A_entity : forall e t c d ks fs fs',
      Writes t c d -> s_ids o = true -> so_keys (cls d) <> None -> so_keys (cls c) = Some ks ->
      fs <> [] -> fs' <> [] ->
      (forall k, In k ks -> dget k fs = dget k fs') ->
      Alike e t (SObj c fs) (SObj c fs').

  (** the value has the declared type: arrays where arrays are declared, members with a type, entities with their keys *)
  Inductive Typed : sty -> sv -> Prop :=
  | T_prim : forall n v, Typed (TPrim n) v
  | T_never : forall v, Typed TNever v
  | T_null : forall t, (forall a, t <> TArr a) -> (s_add o = false) -> Typed t SNull
  | T_atom : forall a, Typed TAny (SAtom a)
  | T_list : forall l, Typed TAny (SArr None l)
  | T_arr : forall t own l a, t = TArr a \/ t = TAny /\ own = Some a ->
      (forall i x t', nth_error l i = Some x ->
         sa_items (arr a) = inl t' \/ (exists ts, sa_items (arr a) = inr ts /\ nth_error ts i = Some t') ->
         (s_nd o = true /\ x = SNull) \/ Typed t' x) -> Typed t (SArr own l)
  | T_obj : forall t c d fs, Writes t c d ->
      (forall k x, In (k, x) fs -> exists t', so_type (cls c) k = Some t' /\ (s_nd o = true /\ x = SNull \/ Typed t' x)) ->
      (so_keys (cls d) <> None -> exists ks, so_keys (cls c) = Some ks /\ forall k, In k ks -> In k (map fst fs)) ->
      (forall k, IsKey d k -> In k (map fst fs)) ->
      Typed t (SObj c fs).
End Spec.
