(** What a checked argument means, without the decorator. *)
From Verif Require Export Argc_Model.

Section Spec.
  Variable V : Type.
  (** the call binds parameter [p] to the explicit value [v] *)
  Definition Binds (b : bound V) (p : string) (v : V) : Prop := In (p, Some v) (b_params b).
  (** the call leaves parameter [p] to its default *)
  Definition Defaults (b : bound V) (p : string) : Prop := In (p, None) (b_params b).
  (** [b'] is [b] with the explicit value of parameter [p] changed to [w] *)
  Definition Changed (p : string) (w : V) (b b' : bound V) : Prop :=
    map fst (b_params b') = map fst (b_params b) /\
    (forall q x, In (q, x) (b_params b') <-> (q = p /\ x = Some w) \/ (q <> p /\ In (q, x) (b_params b))) /\
    b_rest b' = b_rest b /\ b_kw b' = b_kw b.
  (** a checker rejects a value as invalid, or fails otherwise: the caller sees a ValidationError in the first case *)
  Inductive Rejected : exn -> exn -> Prop :=
  | Rej_invalid : Rejected InvalidValue ValidationError
  | Rej_validation : Rejected ValidationError ValidationError
  | Rej_other e : e <> InvalidValue -> e <> ValidationError -> Rejected e e.

  (** the names of the parameters are distinct, which Python imposes *)
  Definition Signature (sg : sig) : Prop := NoDup (map fst (s_params sg)).

  (** the decorator is given parameter [p], by name or by position, which is not the instance of a method; the instance, if
      any, is true in the sense of [bool()] *)
  Definition Selects (sg : sig) (self : option (V * bool)) (a : argspec) (p : string) : Prop :=
    exists i, nth_error (map fst (s_params sg)) i = Some p /\ (a = ByName p \/ a = ByPos (Z.of_nat i)) /\
      match self with Some (_, t) => t = true /\ 1 <= i | None => True end.

  (** Every parameter of [b'] is what [b] says, checked by the checker listed for it, if any and if the value is explicit. *)
  Definition CheckedBy (cs : list (string * (V -> res V))) (b b' : bound V) : Prop :=
    map fst (b_params b') = map fst (b_params b) /\ b_rest b' = b_rest b /\ b_kw b' = b_kw b /\
    forall p,
      (Defaults b' p <-> Defaults b p) /\
      (forall v', Binds b' p v' ->
        exists v, Binds b p v /\
          ((~ In p (map fst cs) /\ v' = v) \/ exists c, In (p, c) cs /\ c v = Ok v')).
End Spec.
Arguments Binds {V}. Arguments Defaults {V}. Arguments Changed {V}. Arguments CheckedBy {V}. Arguments Selects {V}.
