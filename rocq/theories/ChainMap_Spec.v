(** What "first map wins" means, independently of the lookup functions. *)
From Verif Require Export ChainMap_Model.

Section Spec.
  Context {K V : Type} {EK : EqDec K}.

  (** The key occurs somewhere in the map. *)
  Inductive HasKey (k : K) : cmap K V -> Prop :=
  | HK_plain d : In k (map fst d) -> HasKey k (Plain d)
  | HK_chain ms m : In m ms -> HasKey k m -> HasKey k (Chain ms).

  (** The map gives [v] for [k]: a plain dictionary holds the pair; a chain takes it from a member such that
      no earlier member has the key. *)
  Inductive Gives (k : K) (v : V) : cmap K V -> Prop :=
  | G_plain d : In (k, v) d -> Gives k v (Plain d)
  | G_chain pre m post : (forall m', In m' pre -> ~ HasKey k m') -> Gives k v m -> Gives k v (Chain (pre ++ m :: post)).

  (** [l] lists elements in the order of their first appearance in [src]: walking along [src], each element not
      met before is the next of [l]. *)
  Inductive FirstAppearance : list K -> list K -> Prop :=
  | FA_nil : FirstAppearance [] []
  | FA_new src l x : FirstAppearance src l -> ~ In x src -> FirstAppearance (src ++ [x]) (l ++ [x])
  | FA_old src l x : FirstAppearance src l -> In x src -> FirstAppearance (src ++ [x]) l.
End Spec.

Section CtxSpec.
  Context {K V : Type} {EK : EqDec K}.
  (** lookup through a reference, [None] if the reference does not exist *)
  Definition ctx_value (h : @heap K V) (r : nat) (k : K) : option (res V) :=
    match nth_error h r with Some c => Some (cm_getitem (Chain (c_maps c)) k) | None => None end.

  (** does an operation write to the chain of [r]? *)
  Definition targets (o : ctx_op (K := K) (V := V)) (r : nat) : Prop :=
    match o with Prepend r' _ | Append r' _ => r' = r | _ => False end.

End CtxSpec.
