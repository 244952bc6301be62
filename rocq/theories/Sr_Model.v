(** Sessions and their repositories: ngoschema/session.py:50-62 (bind_repo, get_or_create_repo), protocols/repository.py:13-25
    (Repository.__init__), repositories/memory_repository.py:17-23 and repositories/file_repositories.py:55-57, 82-97, 106-107 (the
    constructors and the loading of a file), utils/utils.py:269-270 (GenericClassRegistry.get).
    Simplifications: the array [repositories] of a session is the list of what was appended to it (C56); of a repository its class
    and the session it is bound to are kept, what it contains is the subject of Repo_Model and Lsv_Model. *)
From Verif Require Export Base.

(** [r_session] is the attribute [_session] *)
Record repo := { r_class : string; r_session : nat }.
(** the repositories of each session made so far, session 0 being [default_session] (session.py:357), and all repositories *)
Record world := { w_sess : list (list nat); w_repos : list repo }.
Definition start : world := {| w_sess := [[]]; w_repos := [] |}.
Definition repositories (w : world) (s : nat) : list nat := nth s (w_sess w) [].

Section Repos.
  (** the truth value of a session: false when it holds no data (object_protocol.py:253-254) *)
  Variable live : nat -> bool.
  (** the registered classes, by the name given to [register] *)
  Variable registry : dict string string.

  Fixpoint upd {A} (l : list A) (i : nat) (f : A -> A) : list A :=
    match l, i with [], _ => [] | x :: l', 0 => f x :: l' | y :: l', S i' => y :: upd l' i' f end.
  (** session.py:50-52 *)
  Definition bind_repo (s r : nat) (w : world) : world :=
    {| w_sess := upd (w_sess w) s (fun l => l ++ [r]); w_repos := upd (w_repos w) r (fun x => {| r_class := r_class x; r_session := s |}) |}.
  (** memory_repository.py:17-21, file_repositories.py:55-57: the argument [session] goes to [ObjectProtocol.__init__], which keeps it
      in the context of the new object (Cx_Model); what [Repository.__init__] gets are the options in [meta_opts] and the members of
      the object, among which there is no session; then repository.py:22-23, the class attribute [_session] being the default session *)
  Definition make (cls : string) (meta session : option nat) (w : world) : nat * world :=
    let r := length (w_repos w) in
    let s := match meta with Some n => if live n then n else 0 | None => 0 end in
    (r, bind_repo s r {| w_sess := w_sess w; w_repos := w_repos w ++ [{| r_class := cls; r_session := 0 |}] |}).
  (** session.py:55-57 *)
  Definition by_class (w : world) (s : nat) (name : string) : option nat :=
    find (fun r => match nth_error (w_repos w) r with Some x => String.eqb (r_class x) name | None => false end) (repositories w s).
  (** session.py:54-62; calling None raises *)
  Definition get_or_create_repo (s : nat) (name : string) (w : world) : res nat * world :=
    match by_class w s name with
    | Some r => (Ok r, w)
    | None => match dget name registry with
              | None => (Err TypeError, w)
              | Some cls => let '(r, w') := make cls None (Some s) w in (Ok r, w')
              end
    end.
  (** file_repositories.py:82-87 [load_object_from_file]: a repository is made for each file *)
  Definition load_file (cls : string) (session : option nat) (w : world) : nat * world := make cls None session w.

  Inductive op :=
  | NewSession
  | Make (cls : string) (meta session : option nat)
  | Bind (s r : nat)
  | GetOrCreate (s : nat) (name : string)
  | LoadFile (cls : string) (session : option nat).
  Definition step (w : world) (o : op) : world :=
    match o with
    | NewSession => {| w_sess := w_sess w ++ [[]]; w_repos := w_repos w |}
    | Make c m s => snd (make c m s w)
    | Bind s r => bind_repo s r w
    | GetOrCreate s n => snd (get_or_create_repo s n w)
    | LoadFile c s => snd (load_file c s w)
    end.
  Definition run (ops : list op) : world := fold_left step ops start.
End Repos.
