(** ngoschema/protocols/loader.py: Loader._load 18-29, __call__ 31-33, load 36-39; Saver._save 52-56, __call__ 58-60, save 63-66;
    protocols/repository.py: Repository.__init__ 18-25, _commit 31-39 (commit 49-51 and __call__ 45-47 add a context only), dump 41-43, __contains__ 53-54;
    protocols/transformer.py: _transform 23-31, __call__ 33-34, transform 36-39; protocols/resolver.py: __call__ 20-22, resolve 24-27. *)
From Verif Require Export Types_Model Fkey_Model.
Local Open Scope list_scope.

(** a list comprehension: [[f(x) for x in l]] of loader.py:24-26 *)
Fixpoint each {A B} (f : A -> res B) (l : list A) : res (list B) :=
  match l with [] => Ok [] | x :: l' => do y <- f x; do ys <- each f l'; Ok (y :: ys) end.

Section Lsv.
  (** the deserialiser ([evaluate=False]), the instance class (if any), the serialiser, with the options of the call *)
  Variable deser : pyval -> res pyval.
  Variable inst : option (pyval -> res pyval).
  Variable ser : pyval -> res pyval.
  (** the elements of an object when it is iterated *)
  Variable members : nat -> res (list pyval).

  Definition one_deser (deserialize : bool) (v : pyval) : res pyval := if deserialize then deser v else Ok v.
  Definition one_inst (v : pyval) : res pyval := match inst with Some f => f v | None => Ok v end.
  (** loader.py:18-29; Array.deserialize(value, split_string=True) is that of Fkey_Model; [many] is the argument and not the
      option the loader was made with *)
  Definition load (many deserialize : bool) (value : pyval) : res pyval :=
    if many then
      do l <- array_deserialize array_class split_opts value;
      do ds <- each (one_deser deserialize) l;
      do os <- each one_inst ds; Ok (VList os)
    else do d <- one_deser deserialize value; one_inst d.
  (** [raise x] for a value that is not an exception *)
  Definition raise_value {A} (r : res pyval) : res A := match r with Ok _ => Err TypeError | Err e => Err e end.
  (** 31-33 *)
  Definition loader_call (many deserialize : bool) (value : pyval) : res pyval := raise_value (load many deserialize value).
  (** 52-56; [many] reaches the loader with the other options *)
  Definition save (load_first many serialize : bool) (value : pyval) : res pyval :=
    do v <- (if load_first then load many true value else Ok value);
    if serialize then ser v else Ok v.
  (** 58-60: [load] is named and not passed on *)
  Definition saver_call (load_first many serialize : bool) (value : pyval) : res pyval := raise_value (save false many serialize value).

  (** list.extend: the elements of an iterable *)
  Definition elements (v : pyval) : res (list pyval) :=
    match v with
    | VList l | VTup l => Ok l
    | VStr s => Ok (map (fun c => VStr (String c EmptyString)) (list_ascii_of_string s))
    | VDict d => Ok (map (fun kv => VStr (fst kv)) d)
    | VObj o => members o
    | _ => Err TypeError
    end.
  (** a repository: [_many], [_content] *)
  Record repository := { r_many : bool; r_content : pyval }.
  (** repository.py:14-16, 24-25 *)
  Definition new_repository (many : bool) : repository := {| r_many := many; r_content := if many then VList [] else VNone |}.
  (** what is given to commit: the value, and the options save (default true), load, many, serialize *)
  Record commit_op := { c_value : pyval; c_save : bool; c_load : bool; c_many : bool; c_serialize : bool }.
  (** repository.py:31-39 *)
  Definition commit (r : repository) (c : commit_op) : res pyval * repository :=
    match (if c_save c then save (c_load c) (c_many c) (c_serialize c) (c_value c) else Ok (c_value c)) with
    | Err e => (Err e, r)
    | Ok v =>
        if r_many r then
          match r_content r, elements v with
          | VList l, Ok vs => (Ok (VList (l ++ vs)), {| r_many := true; r_content := VList (l ++ vs) |})
          | _, Ok _ => (Err AttributeError, r)
          | _, Err e => (Err e, r)
          end
        else (Ok v, {| r_many := false; r_content := v |})
    end.
  (** a history of commits; the caller catches the exceptions *)
  Fixpoint commits (r : repository) (cs : list commit_op) : repository :=
    match cs with [] => r | c :: cs' => commits (snd (commit r c)) cs' end.
  (** 41-43 *)
  Definition dump (r : repository) : res pyval := save false false true (r_content r).
  (** 53-54: [item in self._content]; the equality of the elements is a parameter *)
  Definition repository_contains (eqv : pyval -> pyval -> bool) (r : repository) (item : pyval) : res bool :=
    match r_content r with
    | VStr s => match item with VStr t => Ok (contains_sub (list_ascii_of_string t) (list_ascii_of_string s)) | _ => Err TypeError end
    | v => do l <- elements v; Ok (existsb (eqv item) l)
    end.
End Lsv.

Section Transform.
  Variable conv : pyval -> res pyval.                  (* self._convert *)
  Variable target : pyval -> res pyval.                (* toClass *)
  (** transformer.py:23-31 *)
  Definition transform0 (convert : bool) (v : pyval) : res pyval := do w <- (if convert then conv v else Ok v); target w.
  (** 33-34 *)
  Definition transform_call (convert : bool) (v : pyval) : res pyval := transform0 convert v.
  (** 36-39; [convert] is false unless asked *)
  Definition transform (convert : bool) (v : pyval) : res pyval := do w <- (if convert then conv v else Ok v); transform0 convert w.
  (** resolver.py:20-27; [target] is [_resolve] *)
  Definition resolve (convert : bool) (v : pyval) : res pyval := do w <- (if convert then conv v else Ok v); target w.
  Definition resolver_call (convert : bool) (v : pyval) : res pyval := raise_value (resolve convert v).
End Transform.
