(** Checked arguments: the decorator [assert_arg] of ngoschema/decorators.py:103-175, and the way Python binds the arguments
    of a call. Simplifications: positional parameters only have a name and a flag telling whether they have a default;
    [inspect.getargspec] (117) is taken to succeed, so keyword-only parameters are left out; the text of the documentation
    and of the messages is dropped; the call of a validator (types/type.py:29-32) is a function of the value. *)
From Verif Require Export Arr_Model.

(** what [inspect.getargspec] tells: the parameters with "has a default", [*args], [**kwargs] *)
Record sig := { s_params : list (string * bool); s_star : bool; s_starstar : bool }.

Section Calls.
  Variable V : Type.
  (** what the body of a function sees: each parameter with its value (None: its default), the rest of the positional
      arguments, the rest of the keywords *)
  Record bound := { b_params : list (string * option V); b_rest : list V; b_kw : dict string V }.
  (** a call raises before the body runs, or runs the body *)
  Inductive outcome := Raises (e : exn) | Runs (b : bound).

  (** Python's binding of positional arguments, then keywords, then defaults *)
  Fixpoint bind_params (ps : list (string * bool)) (args : list V) (kw : dict string V) : res (list (string * option V) * list V) :=
    match ps with
    | [] => Ok ([], args)
    | (p, d) :: ps' =>
        match args with
        | a :: args' => if dmem p kw then Err TypeError
                        else do r <- bind_params ps' args' kw; Ok ((p, Some a) :: fst r, snd r)
        | [] => match dget p kw with
                | Some v => do r <- bind_params ps' [] kw; Ok ((p, Some v) :: fst r, snd r)
                | None => if d then do r <- bind_params ps' [] kw; Ok ((p, None) :: fst r, snd r) else Err TypeError
                end
        end
    end.
  Definition call (sg : sig) (args : list V) (kw : dict string V) : outcome :=
    match bind_params (s_params sg) args kw with
    | Err e => Raises e
    | Ok (bs, rest) =>
        let extra := filter (fun x => negb (mem (fst x) (map fst (s_params sg)))) kw in
        if negb (s_star sg) && negb (match rest with [] => true | _ => false end) then Raises TypeError
        else if negb (s_starstar sg) && negb (match extra with [] => true | _ => false end) then Raises TypeError
        else Runs {| b_params := bs; b_rest := rest; b_kw := extra |}
    end.

  (** the argument to check is given by position or by name *)
  Inductive argspec := ByPos (i : Z) | ByName (s : string).
  (** 115-128: [arg_i] and [arg_s] *)
  Fixpoint index_of (s : string) (l : list string) : option nat :=
    match l with [] => None | x :: l' => if eq_dec x s then Some 0 else option_map S (index_of s l') end.
  Definition locate (sg : sig) (a : argspec) : res (option Z * string) :=
    match a with
    | ByPos i => do s <- py_get i (map fst (s_params sg)); Ok (Some i, s)
    | ByName s => Ok (option_map Z.of_nat (index_of s (map fst (s_params sg))), s)
    end.

  (** a callable as [wrapt] sees it: already bound to its instance, if any *)
  Definition callable := list V -> dict string V -> outcome.
  (** the truth value of a keyword value, for [assert_args] *)
  Variable truth : V -> bool.
  (** 155-163: rejected values are reported as ValidationError, other exceptions go through. InvalidValue is a
      ValidationError (exceptions.py). *)
  Definition reported (e : exn) : exn := match e with InvalidValue => ValidationError | _ => e end.

  (** 131-164 [wrapper]: [arg_i], [arg_s] as located; [inst] is None for a plain function, or the truth value of the
      instance a method is bound to; [check] is the call of the validator *)
  Definition wrapper (check : V -> res V) (arg_i : option Z) (arg_s : string) (inst : option bool) (wrapped : callable) : callable :=
    fun args kw =>
      let assert_args := match dget "assert_args"%string kw with Some v => truth v | None => true end in
      let kw := ddel "assert_args"%string kw in
      if negb assert_args then wrapped args kw
      else
        (* 139: arg_i if not instance and arg_i is not None else arg_i - 1 *)
        match arg_i with
        | None => Raises TypeError
        | Some i =>
            let i2 := match inst with Some true => (i - 1)%Z | _ => i end in
            match dget arg_s kw with
            | Some v => match check v with
                        | Ok w => wrapped args (dset arg_s w kw)
                        | Err e => Raises (reported e)
                        end
            | None =>
                if Z.ltb i2 (Z.of_nat (length args)) then
                  match py_get i2 args with
                  | Err e => Raises e
                  | Ok v => match check v with
                            | Ok w => match py_set i2 w args with Ok args' => wrapped args' kw | Err e => Raises e end
                            | Err e => Raises (reported e)
                            end
                  end
                else wrapped args kw
            end
        end.

  (** a function or a method bound to an instance, with its truth value *)
  Definition bound_call (sg : sig) (self : option (V * bool)) : callable :=
    fun args kw => call sg (match self with Some (o, _) => o :: args | None => args end) kw.
  (** several decorators, the outermost first; each sees the signature of the function (117) *)
  Fixpoint decorated (sg : sig) (self : option (V * bool)) (ds : list (argspec * (V -> res V))) : res callable :=
    match ds with
    | [] => Ok (bound_call sg self)
    | (a, check) :: ds' =>
        do f <- decorated sg self ds';
        do l <- locate sg a;
        Ok (wrapper check (fst l) (snd l) (option_map snd self) f)
    end.
End Calls.
Arguments b_params {V}. Arguments b_rest {V}. Arguments b_kw {V}.
Arguments Raises {V}. Arguments Runs {V}. Arguments call {V}. Arguments bind_params {V}.
Arguments wrapper {V}. Arguments bound_call {V}. Arguments decorated {V}.
