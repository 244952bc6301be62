(** ngoschema/decorators.py: take_arrays 30-97, assert_prop 247-271, memoized_property 312-331, memoized_method 334-349. *)
From Verif Require Export Base Lru_Model.
Local Open Scope list_scope.

(** * take_arrays *)
Section TakeArrays.
  (** values; [as_seq v]: the elements, in iteration order, when the type of [v] is list, set or tuple (48);
      [iter v]: iteration over a result (74); [f]: the wrapped function, with its effects on the state [S] *)
  Variable V S : Type.
  Variable as_seq : V -> option (list V).
  Variable iter : V -> res (list V).
  Variable f : list V -> S -> res V * S.

  Inductive outcome := One (v : V) | Many (vs : list V).
  Fixpoint set_arg (i : nat) (v : V) (args : list V) : list V :=
    match args, i with [], _ => [] | _ :: r, 0 => v :: r | x :: r, Datatypes.S j => x :: set_arg j v r end.
  (** the calls of a loop (54-56, 61-64); the first exception ends it *)
  Fixpoint call_all (argss : list (list V)) (s : S) : res (list V) * S :=
    match argss with
    | [] => (Ok [], s)
    | a :: argss' =>
        match f a s with
        | (Err e, s') => (Err e, s')
        | (Ok v, s') => match call_all argss' s' with (Ok vs, s'') => (Ok (v :: vs), s'') | (Err e, s'') => (Err e, s'') end
        end
    end.
  Fixpoint concat_iter (vs : list V) : res (list V) :=
    match vs with [] => Ok [] | v :: vs' => do a <- iter v; do b <- concat_iter vs'; Ok (a ++ b) end.
  Definition finish (flatten : bool) (r : res (list V) * S) : res outcome * S :=
    match r with
    | (Err e, s) => (Err e, s)
    | (Ok vs, s) => if flatten then match concat_iter vs with Ok l => (Ok (Many l), s) | Err e => (Err e, s) end else (Ok (Many vs), s)
    end.
  (** 46-75, keyword arguments being part of [f]. Simplification: the positions are not negative; [narg2 = -1] is [None]. *)
  Definition take_arrays (narg1 : nat) (narg2 : option nat) (flatten : bool) (args : list V) (s : S) : res outcome * S :=
    match nth_error args narg1 with
    | None => (Err IndexError, s)
    | Some a1 =>
        match as_seq a1 with
        | None => match f args s with (Ok v, s') => (Ok (One v), s') | (Err e, s') => (Err e, s') end       (* 72 *)
        | Some l1 =>
            let one := finish flatten (call_all (map (fun v => set_arg narg1 v args) l1) s) in
            match narg2 with
            | None => one
            | Some n2 =>
                match nth_error args n2 with
                | None => (Err IndexError, s)                                                           (* 52 *)
                | Some a2 =>
                    match as_seq a2 with
                    | None => one
                    | Some l2 =>
                        if Nat.eqb (length l2) 1 then one                                                (* 53 *)
                        else if Nat.eqb (length l1) (length l2)
                        then finish flatten (call_all (map (fun p => set_arg n2 (snd p) (set_arg narg1 (fst p) args)) (combine l1 l2)) s)
                        else (Err InvalidValue, s)
                    end
                end
            end
        end
    end.

  (** a function of [k] positional parameters, as Python calls it *)
  Definition py_function (k : nat) (body : list V -> S -> res V * S) (args : list V) (s : S) : res V * S :=
    if Nat.eqb (length args) k then body args s else (Err TypeError, s).
End TakeArrays.
Arguments py_function {V S}.
Arguments One {V}. Arguments Many {V}.
Arguments set_arg {V}. Arguments call_all {V S}. Arguments concat_iter {V}. Arguments take_arrays {V S}. Arguments finish {V S}.

(** [obj.m( *args)] for a method decorated in its class: wrapt hands over the instance apart from the arguments (46), and the wrapper
    calls [wrapped] of the enclosing scope (43: the function of the class) rather than its own parameter [method] (46: the bound
    method) at 56, 64 and 72, so the instance is not among the arguments. *)
Definition take_arrays_method {V S} as_seq iter (k : nat) (body : list V -> S -> res V * S) n1 n2 fl (obj : V) (args : list V) (s : S) :=
  take_arrays as_seq iter (py_function k body) n1 n2 fl args s.

(** * assert_prop 256-260: [getattr(instance, prop, None)] *)
Section AssertProp.
  Variable V R : Type.
  Fixpoint assert_prop (props : list string) (attrs : dict string (option V)) (call : res R) : res R :=
    match props with
    | [] => call
    | p :: ps => match dget p attrs with Some (Some _) => assert_prop ps attrs call | _ => Err AttributeError end
    end.
End AssertProp.

(** * memoized_property *)
Section MemoProp.
  (** [fget p i s]: the getter of property [p] on instance [i] *)
  Variable V S : Type.
  Variable fget : string -> nat -> S -> res V * S.
  (** the instances' dictionaries, the state the getters work on, and the evaluations of getters so far (most recent first) *)
  Record mem_st := { m_dict : dict (nat * string) V; m_state : S; m_evals : list (nat * string) }.
  Inductive mem_op := MRead (i : nat) (p : string) | MReset (i : nat) (p : string) | MAssign (i : nat) (p : string) (v : V).
  (** attribute access: the dictionary of the instance first, since the descriptor defines no [__set__]; then 320-324; 330-331 *)
  Definition mem_step (st : mem_st) (x : mem_op) : res (option V) * mem_st :=
    match x with
    | MRead i p =>
        match dget (i, p) (m_dict st) with
        | Some v => (Ok (Some v), st)
        | None => match fget p i (m_state st) with
                  | (Ok v, s') => (Ok (Some v), {| m_dict := dset (i, p) v (m_dict st); m_state := s'; m_evals := (i, p) :: m_evals st |})
                  | (Err e, s') => (Err e, {| m_dict := m_dict st; m_state := s'; m_evals := (i, p) :: m_evals st |})
                  end
        end
    | MReset i p => (Ok None, {| m_dict := ddel (i, p) (m_dict st); m_state := m_state st; m_evals := m_evals st |})
    | MAssign i p v => (Ok None, {| m_dict := dset (i, p) v (m_dict st); m_state := m_state st; m_evals := m_evals st |})
    end.
  Fixpoint mem_run (st : mem_st) (xs : list mem_op) : list (res (option V)) * mem_st :=
    match xs with
    | [] => ([], st)
    | x :: xs' => let (r, st1) := mem_step st x in let (rs, st2) := mem_run st1 xs' in (r :: rs, st2)
    end.
End MemoProp.
Arguments m_dict {V S}. Arguments m_state {V S}. Arguments m_evals {V S}.
Arguments MRead {V}. Arguments MReset {V}. Arguments MAssign {V}.
Arguments mem_step {V S}. Arguments mem_run {V S}.

(** * memoized_method *)
Section MemoMethod.
  Variable A V : Type.
  Context {EA : EqDec A}.
  Variable size : nat.
  (** the method of one name in the classes of the instance, the most derived first: either a function of the arguments, or one that
      calls [super()] with the same arguments and works on the result *)
  Inductive body := Leaf (g : A -> res V) | Super (g : A -> V -> res V).
  (** the instance's own attribute of this name (346): which class' function it wraps, and the table of its lru cache *)
  Definition own := option (list body * dict A V).
  (** a table update when the cached function returns. The attribute may have been replaced meanwhile by a [super()] call: the
      table then belongs to an object nothing refers to any more, and is lost. *)
  Definition record (me : nat) (a : A) (r : res V) (o : own) : own :=
    match o, r with
    | Some (bs, c), Ok v => if Nat.eqb (length bs) me then Some (bs, firstn size ((a, v) :: c)) else o
    | _, _ => o
    end.
  (** calling the function of the class at the head of [bs] through the wrapper [wrapped_func] 337-347: a new cache every time *)
  Fixpoint wrapped (bs : list body) (a : A) (o : own) : res V * own :=
    match bs with
    | [] => (Err AttributeError, o)
    | b :: bs' =>
        let o1 := Some (b :: bs', []) in
        let (r, o2) := match b with
                       | Leaf g => (g a, o1)
                       | Super g => match wrapped bs' a o1 with (Ok v, o2) => (g a v, o2) | (Err e, o2) => (Err e, o2) end
                       end in
        (r, record (length (b :: bs')) a r o2)
    end.
  (** [instance.method(a)]: the instance's own attribute hides the one of the class *)
  Definition method_call (bs : list body) (a : A) (o : own) : res V * own :=
    match o with
    | None => wrapped bs a o
    | Some ([], _) => (Err AttributeError, o)
    | Some (b :: bs', c) =>
        match dget a c with
        | Some v => (Ok v, Some (b :: bs', (a, v) :: ddel a c))
        | None =>
            let (r, o2) := match b with
                           | Leaf g => (g a, o)
                           | Super g => match wrapped bs' a o with (Ok v, o2) => (g a v, o2) | (Err e, o2) => (Err e, o2) end
                           end in
            (r, record (length (b :: bs')) a r o2)
        end
    end.
  Fixpoint method_run (bs : list body) (xs : list A) (o : own) : list (res V) * own :=
    match xs with [] => ([], o) | a :: xs' => let (r, o1) := method_call bs a o in let (rs, o2) := method_run bs xs' o1 in (r :: rs, o2) end.
  (** what the methods say without memoisation *)
  Fixpoint meaning (bs : list body) (a : A) : res V :=
    match bs with [] => Err AttributeError | Leaf g :: _ => g a | Super g :: bs' => do v <- meaning bs' a; g a v end.
End MemoMethod.
Arguments Leaf {A V}. Arguments Super {A V}.
Arguments wrapped {A V}. Arguments method_call {A V EA}. Arguments method_run {A V EA}. Arguments meaning {A V}. Arguments record {A V}.
