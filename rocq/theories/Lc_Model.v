(** Loading the configuration of logs: ngoschema/config/utils.py:34-43. Dictionaries are mutable objects on a heap, so that sharing
    shows. Simplifications: the file exists and was parsed (yaml); [logging.config.dictConfig] gets the configuration and either fails
    or not, without changing it; values that are no dictionaries are never changed in place; the default configuration and what a file
    gives share no dictionary within themselves; the order in which new dictionaries are made is not that of Python. *)
From Verif Require Export Base PyVal.

Inductive cell := V (v : pyval) | R (r : nat).
Notation obj := (list (string * cell)).
Notation heap := (list obj).

(** what a value looks like: dictionaries all the way down to values *)
Inductive tree := Leaf (v : pyval) | Node (l : list (string * tree)).

(** making new dictionaries with the contents of a tree *)
Fixpoint alloc (t : tree) (h : heap) : cell * heap :=
  match t with
  | Leaf v => (V v, h)
  | Node l =>
      let q := (fix go (l : list (string * tree)) (h : heap) : obj * heap :=
                  match l with
                  | [] => ([], h)
                  | (k, x) :: r => let a := alloc x h in let b := go r (snd a) in ((k, fst a) :: fst b, snd b)
                  end) l h in
      (R (length (snd q)), snd q ++ [fst q])
  end.
Fixpoint alloc_list (l : list (string * tree)) (h : heap) : obj * heap :=
  match l with
  | [] => ([], h)
  | (k, x) :: r => let a := alloc x h in let b := alloc_list r (snd a) in ((k, fst a) :: fst b, snd b)
  end.

(** what a value looks like now; the fuel is more than the depth *)
Fixpoint read (fuel : nat) (h : heap) (c : cell) : tree :=
  match fuel with
  | 0 => Leaf VNone
  | S f => match c with
           | V v => Leaf v
           | R r => match nth_error h r with Some o => Node (map (fun p => (fst p, read f h (snd p))) o) | None => Leaf VNone end
           end
  end.
Definition looks (h : heap) (c : cell) : tree := read (S (length h)) h c.

(** [d.update(e)] *)
Definition update (d e : obj) : obj := fold_left (fun acc p => dset (fst p) (snd p) acc) e d.

(** [c[path[0]][path[1]]...], when it is a dictionary *)
Fixpoint follow (h : heap) (c : cell) (path : list string) : option cell :=
  match path with
  | [] => Some c
  | k :: r => match c with R n => match nth_error h n with Some o => match dget k o with Some c' => follow h c' r | None => None end | None => None end | V _ => None end
  end.

Fixpoint lput {A} (l : list A) (i : nat) (x : A) : list A :=
  match l, i with [], _ => [] | _ :: r, 0 => x :: r | y :: r, S j => y :: lput r j x end.

Record lst := { l_heap : heap; l_made : list cell }.       (* the heap, the configurations returned so far *)

Section Load.
  Variable settings : cell.                                 (* settings.LOGGING *)
  Variable dict_config : tree -> option exn.                (* the error of logging.config.dictConfig, if any *)

  (** config/utils.py:35-43; [file] is the dictionary yaml gives for the contents, or None for an empty file; other contents
      are not covered *)
  Definition load_log_config (file : option (list (string * tree))) (s : lst) : res cell * lst :=
    match looks (l_heap s) settings with                    (* deepcopy: what it looks like, made anew *)
    | Node d =>
        match file with
        | Some l =>
            let q := alloc_list d (l_heap s) in
            let q2 := alloc_list l (snd q) in
            let h := snd q2 ++ [update (fst q) (fst q2)] in
            let c := R (length (snd q2)) in
            match dict_config (looks h c) with
            | Some e => (Err e, {| l_heap := h; l_made := l_made s |})
            | None => (Ok c, {| l_heap := h; l_made := l_made s ++ [c] |})
            end
        | None => (Err TypeError, s)                        (* 41: [cfg.update(None)] *)
        end
    | Leaf _ => (Err AttributeError, s)
    end.

  (** what the program does: load files, and change the configurations it got, with values or dictionaries it got *)
  Inductive lop := Load (file : option (list (string * tree))) | Put (i : nat) (path : list string) (k : string) (v : pyval)
                 | Share (i : nat) (path : list string) (k : string) (j : nat) (path' : list string).
  Definition put (s : lst) (i : nat) (path : list string) (k : string) (c : cell) : lst :=
    match nth_error (l_made s) i with
    | Some ci => match follow (l_heap s) ci path with
                 | Some (R n) => match nth_error (l_heap s) n with
                                 | Some o => {| l_heap := lput (l_heap s) n (dset k c o); l_made := l_made s |}
                                 | None => s end
                 | _ => s end
    | None => s
    end.
  Definition step (s : lst) (o : lop) : lst :=
    match o with
    | Load file => snd (load_log_config file s)
    | Put i path k v => put s i path k (V v)
    | Share i path k j path' =>
        match nth_error (l_made s) j with
        | Some cj => match follow (l_heap s) cj path' with Some c => put s i path k c | None => s end
        | None => s
        end
    end.
End Load.

(** a program starting: the default configuration [t] *)
Definition start (t : tree) : cell * lst := (fst (alloc t []), {| l_heap := snd (alloc t []); l_made := [] |}).
Definition run (dict_config : tree -> option exn) (t : tree) (ops : list lop) : lst :=
  fold_left (step (fst (start t)) dict_config) ops (snd (start t)).
