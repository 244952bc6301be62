(** Committing to a repository of files: ngoschema/repositories/file_repositories.py:60-79 over protocols/repository.py:31-39.
    What saves a value ([FileSaver._save], protocols/file_loader.py:143-146, see File_Model), what encodes the contents and what
    iterating a value gives come from outside. Simplification: logging is dropped. *)
From Verif Require Export Base.

Notation path := (list string).
Record files := { f_dirs : list path; f_files : dict path (list ascii) }.
(** [Path.exists] *)
Definition path_exists (p : path) (fs : files) : bool := mem p (f_dirs fs) || dmem p (f_files fs).

(** the directories on the way to [p], and [p] itself *)
Fixpoint prefixes (p : path) : list path := match p with [] => [[]] | x :: r => [] :: map (cons x) (prefixes r) end.
(** [os.makedirs]: every directory on the way is made; a file on the way is an error, OSError, before anything is made *)
Definition os_error : exn := UserError 0.
Definition makedirs (p : path) (fs : files) : res files :=
  if existsb (fun q => dmem q (f_files fs)) (prefixes p) then Err os_error
  else Ok {| f_dirs := f_dirs fs ++ filter (fun q => negb (mem q (f_dirs fs))) (prefixes p); f_files := f_files fs |}.

Section Commit.
  Variable A : Type.                                                    (* values *)
  Variable saver : A -> files -> res A * files.                         (* self._saver._save: what it returns and does to the files *)
  Variable items : A -> res (list A).                                   (* iter(value) *)
  Variable encode : list A -> files -> res (list ascii).                (* self._encoder.serialize *)
  Variable many : bool.                                                 (* self._many *)

  (** the contents: the items when [many], else at most one value *)
  Record repo := { r_content : list A; r_fs : files }.

  (** repository.py:31-39 *)
  Definition base_commit (save : bool) (v : A) (s : repo) : res unit * repo :=
    let q := if save then saver v (r_fs s) else (Ok v, r_fs s) in
    let s1 := {| r_content := r_content s; r_fs := snd q |} in
    match fst q with
    | Err e => (Err e, s1)
    | Ok w => if many
              then match items w with
                   | Err e => (Err e, s1)
                   | Ok l => (Ok tt, {| r_content := r_content s ++ l; r_fs := snd q |})
                   end
              else (Ok tt, {| r_content := [w]; r_fs := snd q |})
    end.

  (** file_repositories.py:60-79; neither [doc] (71) nor [fpath] (73, 76) has a value *)
  Definition commit (filepath : option path) (save : bool) (v : A) (s : repo) : res unit * repo :=
    let b := base_commit save v s in                                    (* 62 *)
    let s1 := snd b in
    match fst b with
    | Err e => (Err e, s1)
    | Ok _ =>
        match encode (r_content s1) (r_fs s1) with                      (* 65 *)
        | Err e => (Err e, s1)
        | Ok _ =>
            match filepath with
            | None => (Err AttributeError, s1)                          (* 67: None has no parent *)
            | Some p =>
                match (if path_exists (removelast p) (r_fs s1) then Ok (r_fs s1) else makedirs (removelast p) (r_fs s1)) with   (* 67-69 *)
                | Err e => (Err e, s1)
                | Ok fs2 => let s2 := {| r_content := r_content s1; r_fs := fs2 |} in
                            if path_exists p fs2 then (Err NameError, s2)   (* 70-71: doc *)
                            else (Err NameError, s2)                        (* 76: fpath *)
                end
            end
        end
    end.

  Fixpoint commits (l : list (option path * bool * A)) (s : repo) : repo :=
    match l with [] => s | (p, save, v) :: r => commits r (snd (commit p save v s)) end.
End Commit.
