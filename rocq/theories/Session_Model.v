(** ngoschema/session.py: session_maker.__init__ 178-224, __call__ 226-244, configure 246-255; scoped_session 276-355 over
    sqlalchemy's ScopedRegistry/ThreadLocalRegistry (one value per scope, documented behaviour). Options are values: the
    dictionaries given as options are not mutated in place afterwards (simplification). *)
From Verif Require Export Base PyVal.
Local Open Scope string_scope. Local Open Scope list_scope.

Definition opts := dict string pyval.

(** [d.update(e)] *)
Definition dupdate {V} (d e : dict string V) : dict string V := fold_left (fun acc kv => dset (fst kv) (snd kv) acc) e d.

(** 178-221: the extra keywords, then the named ones, then [info] unless None *)
Definition maker_init (bind autoflush autocommit expire_on_commit info : pyval) (kw : opts) : opts :=
  let kw := dset "bind" bind kw in
  let kw := dset "autoflush" autoflush kw in
  let kw := dset "autocommit" autocommit kw in
  let kw := dset "expire_on_commit" expire_on_commit kw in
  match info with VNone => kw | _ => dset "info" info kw end.

(** 239-241: [d = v.copy(); d.update(local_kw["info"])]. Simplification: only dictionaries can be merged (a list of pairs could
    too). *)
Definition merge_info (v loc : pyval) : res pyval :=
  match v with
  | VDict d => match loc with VDict e => Ok (VDict (dupdate d e)) | _ => Err TypeError end
  | _ => Err AttributeError
  end.

(** 237-243: the loop over the factory's options *)
Fixpoint maker_loop (kw loc : opts) : res opts :=
  match kw with
  | [] => Ok loc
  | (k, v) :: kw' =>
      if beq k "info" && dmem "info" loc then
        match dget "info" loc with
        | Some li => do d <- merge_info v li; maker_loop kw' (dset "info" d loc)
        | None => Err KeyError
        end
      else maker_loop kw' (if dmem k loc then loc else dset k v loc)     (* setdefault *)
  end.
(** 226-244: the options the new session gets *)
Definition maker_call (kw loc : opts) : res opts := maker_loop kw loc.
(** 246-255 *)
Definition maker_configure (kw new_kw : opts) : opts := dupdate kw new_kw.

(** * a factory and the sessions it made, in order *)
Inductive mk_op := Create (loc : opts) | Configure (new_kw : opts).
Definition mk_step (kw : opts) (o : mk_op) : opts * option (res opts) :=
  match o with
  | Create loc => (kw, Some (maker_call kw loc))
  | Configure new_kw => (maker_configure kw new_kw, None)
  end.
Fixpoint mk_run (kw : opts) (os : list mk_op) : opts := match os with [] => kw | o :: os' => mk_run (fst (mk_step kw o)) os' end.

(** * scoped_session: the factory's options, the session present in each scope, and the options of the sessions made so far (a
    session is its number). Every call is made from a scope: a thread, or the value of [scopefunc]. *)
Section Scoped.
  Context {S : Type} {ES : EqDec S}.
  Record scoped := { sc_kw : opts; sc_reg : dict S nat; sc_made : list opts }.
  Inductive sc_op := Call (kw : opts) | Remove | Reconfigure (kw : opts).

  Definition create (st : scoped) (s : S) (loc : opts) : res nat * scoped :=
    match maker_call (sc_kw st) loc with
    | Err e => (Err e, st)
    | Ok o => (Ok (length (sc_made st)),
               {| sc_kw := sc_kw st; sc_reg := dset s (length (sc_made st)) (sc_reg st); sc_made := sc_made st ++ [o] |})
    end.
  (** the value of a call: the session for Call, 0 for the others *)
  Definition sc_step (st : scoped) (s : S) (o : sc_op) : res nat * scoped :=
    match o with
    | Call [] => match dget s (sc_reg st) with Some n => (Ok n, st) | None => create st s [] end        (* 321: registry() *)
    | Call kw => if dmem s (sc_reg st) then (Err NameError, st)                                         (* 312: [sa_exc] is not imported *)
                 else create st s kw                                                                    (* 317-319 *)
    | Remove =>                                                                                         (* 336-338; close() does nothing *)
        (Ok 0, {| sc_kw := sc_kw st; sc_reg := ddel s (sc_reg st); sc_made := sc_made st |})
    | Reconfigure kw =>
        if dmem s (sc_reg st) then (Err AttributeError, st)                                             (* 349: no [_logger] *)
        else (Ok 0, {| sc_kw := maker_configure (sc_kw st) kw; sc_reg := sc_reg st; sc_made := sc_made st |})   (* 355 *)
    end.
  Fixpoint sc_run (st : scoped) (h : list (S * sc_op)) : scoped :=
    match h with [] => st | (s, o) :: h' => sc_run (snd (sc_step st s o)) h' end.
  Definition sc_init (kw : opts) : scoped := {| sc_kw := kw; sc_reg := []; sc_made := [] |}.
End Scoped.
