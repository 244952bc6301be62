(** The abstract object: a partial function from normalised keys to values. *)
From Verif Require Export KeyMap_Model.

Section Spec.
  Context {K Q V : Type}.
  Variable norm : K -> Q.

  (** [ks] enumerates the domain of [f] without repetition *)
  Definition Domain (f : Q -> option V) (ks : list Q) : Prop :=
    NoDup ks /\ forall q, In q ks <-> f q <> None.

  Inductive SStep : (Q -> option V) -> km_op -> (Q -> option V) -> km_out -> Prop :=
  | S_set f f' k v : f' (norm k) = Some v -> (forall q, q <> norm k -> f' q = f q) -> SStep f (KSet k v) f' (RUnit (Ok tt))
  | S_get f k v : f (norm k) = Some v -> SStep f (KGet k) f (RVal (Ok v))
  | S_get_err f k : f (norm k) = None -> SStep f (KGet k) f (RVal (Err KeyError))
  | S_del f f' k v : f (norm k) = Some v -> f' (norm k) = None -> (forall q, q <> norm k -> f' q = f q) ->
      SStep f (KDel k) f' (RUnit (Ok tt))
  | S_del_err f k : f (norm k) = None -> SStep f (KDel k) f (RUnit (Err KeyError))
  | S_in f k v : f (norm k) = Some v -> SStep f (KContains k) f (RBool true)
  | S_notin f k : f (norm k) = None -> SStep f (KContains k) f (RBool false)
  | S_len f ks : Domain f ks -> SStep f KLen f (RNat (length ks))
  | S_iter f ks : Domain f ks -> SStep f KIter f (RKeys ks).

  Inductive SRun : (Q -> option V) -> list km_op -> list km_out -> Prop :=
  | SR_nil f : SRun f [] []
  | SR_cons f o f' r os rs : SStep f o f' r -> SRun f' os rs -> SRun f (o :: os) (r :: rs).
End Spec.
