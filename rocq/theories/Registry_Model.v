(** ngoschema/utils/utils.py:209-239 (Registry) and 253-267 (GenericClassRegistry.register). *)
From Verif Require Export Base.

Section Registry.
  Context {K V : Type} {EK : EqDec K}.

  (** A registry object: its parents (indices of registries created before it) and its own table
      (utils.py:212-214). *)
  Record reg := { r_parents : list nat; r_table : dict K V }.
  Local Notation store := (list reg).

  Fixpoint set_nth {A} (n : nat) (x : A) (l : list A) : list A :=
    match l, n with [], _ => [] | _ :: l', 0 => x :: l' | y :: l', S n' => y :: set_nth n' x l' end.

  (** utils.py:212-214 [__init__] *)
  Definition reg_new (st : store) (parents : list nat) : store := st ++ [{| r_parents := parents; r_table := [] |}].

  (** utils.py:219-220 [__getitem__], 228-229 [__contains__] *)
  Definition reg_get (st : store) (r : nat) (k : K) : option V :=
    match nth_error st r with Some o => dget k (r_table o) | None => None end.

  (** utils.py:231-234 [register]: set here, then on each parent, recursively. *)
  Fixpoint reg_register (fuel : nat) (st : store) (r : nat) (k : K) (v : V) : res store :=
    match fuel with
    | 0 => Err OutOfFuel
    | S f =>
        match nth_error st r with
        | None => Err TypeError
        | Some o =>
            let st1 := set_nth r {| r_parents := r_parents o; r_table := dset k v (r_table o) |} st in
            fold_left (fun acc p => do st' <- acc; reg_register f st' p k v) (r_parents o) (Ok st1)
        end
    end.

  (** utils.py:236-239 [unregister]: the state after the call is returned with the outcome, because an
      exception from a parent leaves the earlier deletions done. *)
  Fixpoint reg_unregister (fuel : nat) (st : store) (r : nat) (k : K) : store * res unit :=
    match fuel with
    | 0 => (st, Err OutOfFuel)
    | S f =>
        match nth_error st r with
        | None => (st, Err TypeError)
        | Some o =>
            if dmem k (r_table o) then
              let st1 := set_nth r {| r_parents := r_parents o; r_table := ddel k (r_table o) |} st in
              fold_left (fun acc p => match acc with
                                      | (st', Ok _) => reg_unregister f st' p k
                                      | (st', Err e) => (st', Err e)
                                      end) (r_parents o) (st1, Ok tt)
            else (st, Err KeyError)
        end
    end.

  (** registries refer only to registries created before them: fuel [S r] is enough for registry [r] *)
  Definition register (st : store) (r : nat) (k : K) (v : V) : res store := reg_register (S r) st r k v.
  Definition unregister (st : store) (r : nat) (k : K) : store * res unit := reg_unregister (S r) st r k.

  (** the store is well formed: parents exist and are older *)
  Definition store_wf (st : store) : Prop :=
    forall r o, nth_error st r = Some o -> forall p, In p (r_parents o) -> p < r.

  (** a client program creating registries and registering values *)
  Inductive reg_op := RNew (parents : list nat) | RReg (r : nat) (k : K) (v : V).
  Definition reg_step (st : res store) (o : reg_op) : res store :=
    do st0 <- st;
    match o with RNew ps => Ok (reg_new st0 ps) | RReg r k v => register st0 r k v end.
  Definition reg_run (os : list reg_op) : res store := fold_left reg_step os (Ok []).
End Registry.
Arguments RNew {K V}. Arguments RReg {K V}.
Arguments reg : clear implicits.
Notation store K V := (list (reg K V)).

(** utils.py:256-267 [GenericClassRegistry.register]: the decorator registers under the given name or the
    function's own name and returns the function unchanged. *)
Section GenericReg.
  Context {V : Type}.
  Definition generic_register (name : option string) (own_name : V -> string) (st : store string V) (r : nat) (f : V)
    : res (store string V * V) :=
    do st' <- register st r (match name with Some n => n | None => own_name f end) f; Ok (st', f).
End GenericReg.
