(** ngoschema/utils/utils.py: casted_as 519-527, working_directory 698-706, as blocks of programs. *)
From Verif Require Export Base.
Local Open Scope list_scope.

(** directories, instances and classes are numbers; [w_cls] gives the class of each instance *)
Record wst := { cwd : nat; present : list nat; w_cls : dict nat nat }.
Definition not_found := UserError 2.   (* FileNotFoundError *)
Inductive prog :=
| Skip
| Raise (e : exn)
| Chdir (d : nat)                                (* os.chdir *)
| Rmdir (d : nat)
| SetClass (i c : nat)                           (* instance.__class__ = c *)
| Then (a b : prog)
| TryExcept (a b : prog)                         (* try: a  except Exception: b *)
| WithDir (d : nat) (body : prog)                (* with working_directory(d): body *)
| WithCast (i c : nat) (body : prog).            (* with casted_as(i, c): body *)

Section Run.
  Variable mro : nat -> list nat.                (* the classes' __mro__ *)
  Definition chdir (d : nat) (s : wst) : res unit * wst :=
    if mem d (present s) then (Ok tt, {| cwd := d; present := present s; w_cls := w_cls s |}) else (Err not_found, s).
  Definition class_of (s : wst) (i : nat) : nat := match dget i (w_cls s) with Some c => c | None => 0 end.
  Definition set_class (i c : nat) (s : wst) : wst := {| cwd := cwd s; present := present s; w_cls := dset i c (w_cls s) |}.
  Fixpoint run (p : prog) (s : wst) : res unit * wst :=
    match p with
    | Skip => (Ok tt, s)
    | Raise e => (Err e, s)
    | Chdir d => chdir d s
    | Rmdir d => (Ok tt, {| cwd := cwd s; present := filter (fun x => negb (beq d x)) (present s); w_cls := w_cls s |})
    | SetClass i c => (Ok tt, set_class i c s)
    | Then a b => match run a s with (Ok _, s1) => run b s1 | r => r end
    | TryExcept a b => match run a s with (Err _, s1) => run b s1 | r => r end
    | WithDir d body =>
        let prev := cwd s in
        if negb (mem prev (present s)) then (Err not_found, s)            (* 701: the current directory was removed *)
        else match chdir d s with                                          (* 702 *)
             | (Err e, s1) => (Err e, s1)
             | (Ok _, s1) =>
                 let (r, s2) := run body s1 in                             (* 703-704 *)
                 match chdir prev s2 with                                  (* 705-706 *)
                 | (Ok _, s3) => (r, s3)
                 | (Err e, s3) => (Err e, s3)
                 end
             end
    | WithCast i c body =>
        let instance_cls := class_of s i in                                (* 522 *)
        if negb (mem c (mro instance_cls)) then (Err AttributeError, s)    (* 523-524 *)
        else match run body (set_class i c s) with                         (* 525-526 *)
             | (Ok _, s2) => (Ok tt, set_class i instance_cls s2)          (* 527 *)
             | (Err e, s2) => (Err e, s2)
             end
    end.
End Run.
