(** Logged calls: the decorators [log_exceptions] and [log_init] of ngoschema/decorators.py:178-245, which classes put around
    their methods (protocols/object_protocol.py:627-651).
    The program is given from outside: values, states, what [repr] and [str] do, the decorated function. Simplifications: wrapt
    has already separated the instance from the arguments; writing to a logger only adds a line to its journal; the text of the
    exception in the message of [log_init] (240), which logging formats itself, is left out. *)
From Verif Require Export Base.
Local Open Scope string_scope.
Local Open Scope list_scope.

(** how a python function ends: a value, an exception, or an exception that [except Exception] does not catch *)
Inductive out (A : Type) := Ret (a : A) | Exc (e : exn) | Quit (n : nat).
Arguments Ret {A} a. Arguments Exc {A} e. Arguments Quit {A} n.
Inductive level := Debug | Info | Error.

Section Log.
  Context {V S : Type}.
  Definition run (A : Type) := S -> out A * S.
  (** [repr(v)], [str(e)] of an exception *)
  Variable show : V -> run string.
  Variable show_exn : exn -> run string.
  (** the items of a tuple *)
  Variable as_tuple : V -> option (list V).
  (** [hasattr(v, '_logger')], [type(e).__name__] *)
  Variable has_logger : V -> S -> bool.
  Variable exn_name : exn -> string.

  Definition ret {A} (a : A) : run A := fun s => (Ret a, s).
  Definition bind {A B} (m : run A) (k : A -> run B) : run B :=
    fun s => match m s with (Ret a, s') => k a s' | (Exc e, s') => (Exc e, s') | (Quit n, s') => (Quit n, s') end.

  (** 178-186. ["%r" % a]: a tuple is taken for the list of the values to format *)
  Definition show_arg (a : V) : run string :=
    match as_tuple a with
    | None => show a
    | Some [x] => show x
    | Some _ => fun s => (Exc TypeError, s)
    end.
  Fixpoint show_args (l : list V) : run (list string) :=
    match l with [] => ret [] | a :: l' => bind (show_arg a) (fun t => bind (show_args l') (fun ts => ret (t :: ts))) end.
  Fixpoint show_kwargs (l : dict string V) : run (list string) :=
    match l with
    | [] => ret []
    | (k, v) :: l' => bind (show v) (fun t => bind (show_kwargs l') (fun ts => ret ((k ++ "=" ++ t)%string :: ts)))
    end.
  Definition call_msg (who : run string) (args : list V) (kw : dict string V) : run string :=
    bind who (fun w => bind (show_args args) (fun a => bind (show_kwargs kw) (fun b =>
      ret (w ++ "(" ++ String.concat ", " (a ++ b)%list ++ ")")%string))).

  Definition journal := list (level * string).
  Definition func := list V -> dict string V -> run V.
  (** 189-220; the newline and the tabulation of the error message are characters 10 and 9 *)
  Definition break : string := String (ascii_of_nat 10) (String (ascii_of_nat 9) "ERROR ").
  Definition log_exceptions (name : string) (method : func) (inst : option V) (args : list V) (kw : dict string V)
      (s : S) (j : journal) : out V * S * journal :=
    match (match inst with Some i => Some i | None => match args with a :: _ => Some a | [] => None end end) with
    | None => (Exc IndexError, s, j)                                                                   (* 198-199 *)
    | Some i =>
        let who := bind (show i) (fun t => ret (t ++ "." ++ name)%string) in
        let '(r, s1, j1) :=
          if has_logger i s then
            match call_msg who args kw s with
            | (Ret m, s') => (method args kw s', j ++ [(Debug, "CALL " ++ m)%string])
            | (Exc e, s') => (Exc e, s', j)
            | (Quit n, s') => (Quit n, s', j)
            end
          else (method args kw s, j) in
        match r with
        | Exc e =>
            if has_logger i s1 then
              match bind (call_msg who args kw) (fun m => bind (show_exn e) (fun t => ret (m ++ break ++ exn_name e ++ ": " ++ t)%string)) s1 with
              | (Ret m, s2) => (Exc e, s2, j1 ++ [(Error, "CALL " ++ m)%string])
              | (Exc e', s2) => (Exc e', s2, j1)
              | (Quit n, s2) => (Quit n, s2, j1)
              end
            else (Exc e, s1, j1)
        | _ => (r, s1, j1)
        end
    end.
  (** 223-245, of the __init__ of an instance; the first message is formatted outside of [try] *)
  Definition log_init (cname : string) (init : func) (inst : V) (args : list V) (kw : dict string V) (s : S) (j : journal)
      : out V * S * journal :=
    let msg := call_msg (ret ("INIT <" ++ cname ++ ">.__init__")%string) args kw in
    if has_logger inst s then
      match msg s with
      | (Ret m, s1) =>
          let j1 := j ++ [(Info, m)] in
          match init args kw s1 with
          | (Exc e, s2) =>
              if has_logger inst s2 then
                match msg s2 with
                | (Ret m, s3) => (Exc e, s3, j1 ++ [(Error, "CALL " ++ m ++ break ++ exn_name e)%string])
                | (Exc e', s3) => (Exc e', s3, j1)
                | (Quit n, s3) => (Quit n, s3, j1)
                end
              else (Exc AttributeError, s2, j1)
          | (r, s2) => (r, s2, j1)
          end
      | (Exc e, s1) => (Exc e, s1, j)
      | (Quit n, s1) => (Quit n, s1, j)
      end
    else (Exc AttributeError, s, j).
End Log.
