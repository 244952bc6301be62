(** ngoschema/protocols/file_loader.py: FileLoader._open_file 39-47, _read_file 49-54, FileSaver._write_file 105-120,
    _append_file 122-129, _save_file 131-141 (after serialisation). *)
From Verif Require Export Base.
Local Open Scope list_scope.

(** resolved absolute paths: their components *)
Definition path := list string.
Definition bytes := list ascii.
(** files with their bytes, and existing directories *)
Record fs := { files : dict path bytes; dirs : list path }.

Section Files.
  Variable text charset : Type.
  Context {ET : EqDec text}.
  (** codecs: [None] when the text (the bytes) cannot be encoded (decoded) *)
  Variable enc : charset -> text -> option bytes.
  Variable dec : charset -> bytes -> option text.
  (** the encoding used by [open] in text mode *)
  Variable locale : charset.

  Inductive content := Txt (t : text) | Bin (b : bytes).
  Definition content_eqb (a b : content) : bool :=
    match a, b with Txt t, Txt u => beq t u | Bin x, Bin y => beq x y | _, _ => false end.

  (** the saver: [self._binary], [self._charset] *)
  Record saver := { s_binary : bool; s_charset : charset }.
  (** the options of one call *)
  Record fopts := { f_binary : option bool; f_charset : option charset }.

  (** [str(filepath.parent)] and everything above it *)
  Fixpoint ancestors (p : path) : list path :=
    match p with [] => [] | x :: p' => [] :: map (cons x) (ancestors p') end.
  Definition is_file (s : fs) (p : path) : bool := dmem p (files s).
  Definition is_dir (s : fs) (p : path) : bool := mem p (dirs s).
  (** os.makedirs 111-113; raises when something above is a file *)
  Definition makedirs (s : fs) (p : path) : res fs :=
    if existsb (is_file s) (ancestors p) then Err (UserError 113)
    else Ok {| files := files s; dirs := dirs s ++ filter (fun d => negb (is_dir s d)) (ancestors p) |}.

  (** 50-54 with the settings of the saver and no option *)
  Definition read_file (sv : saver) (s : fs) (p : path) : res content :=
    match dget p (files s) with
    | None => Err (UserError 54)
    | Some b => if s_binary sv then Ok (Bin b)
                else match dec (s_charset sv) b with Some t => Ok (Txt t) | None => Err ValueError end
    end.
  (** 40-47 and [f.write(value)]: what is written, or the exception raised by [write]. [self._binary] decides how the file is
      opened (the option was popped, 109); the option only changes the mode. *)
  Definition encode (sv : saver) (o : fopts) (v : content) : res bytes :=
    if s_binary sv then
      if match f_binary o with Some b => b | None => true end
      then match v with Bin b => Ok b | Txt _ => Err TypeError end                          (* open(fp, 'wb') *)
      else match v with Txt t => match enc locale t with Some b => Ok b | None => Err ValueError end | Bin _ => Err TypeError end
    else match v with                                                                        (* codecs.open(fp, mode, charset) *)
         | Txt t => match enc (match f_charset o with Some c => c | None => s_charset sv end) t with Some b => Ok b | None => Err ValueError end
         | Bin _ => Err TypeError
         end.
  Definition set_file (s : fs) (p : path) (b : bytes) : fs := {| files := dset p b (files s); dirs := dirs s |}.
  Definition prefixes (b : bytes) : list bytes := map (fun n => firstn n b) (seq 0 (S (length b))).

  (** the outcome (whether a file was written) and every state of the file system the call goes through, the last one being
      the final one; a crash can happen at each of them *)
  Definition last_state (s : fs) (tr : list fs) : fs := last tr s.
  (** 107-120 *)
  Definition write_file (sv : saver) (o : fopts) (v : content) (p : path) (s : fs) : res bool * list fs :=
    match makedirs s p with
    | Err e => (Err e, [])
    | Ok s1 =>
        let made := if forallb (is_dir s) (ancestors p) then [] else [s1] in
        if is_dir s1 p then (Err (UserError 119), made)                       (* a directory cannot be read nor opened *)
        else
          let write :=
            match encode sv o v with
            | Ok b => (Ok true, made ++ map (set_file s1 p) (prefixes b))      (* opened (emptied), then written *)
            | Err e => (Err e, made ++ [set_file s1 p []])                     (* opened (emptied), then an exception *)
            end in
          if is_file s1 p then
            match read_file sv s1 p with                                      (* 114-118 *)
            | Err e => (Err e, made)
            | Ok c => if content_eqb v c then (Ok false, made) else write
            end
          else write
    end.
  (** 122-129: the path must exist (checked by the decorator) *)
  Definition append_file (sv : saver) (o : fopts) (v : content) (p : path) (s : fs) : res bool * list fs :=
    match dget p (files s) with
    | None => (Err ValidationError, [])
    | Some old => match encode sv o v with
                  | Ok b => (Ok true, map (fun x => set_file s p (old ++ x)) (prefixes b))
                  | Err e => (Err e, [])
                  end
    end.
  (** 131-141: the value is serialised before *)
  Definition save_file (append : bool) (sv : saver) (o : fopts) (v : content) (p : path) (s : fs) : res bool * list fs :=
    if append then append_file sv o v p s else write_file sv o v p s.
End Files.
Arguments Txt {text}. Arguments Bin {text}.
Arguments s_binary {charset}. Arguments s_charset {charset}. Arguments f_binary {charset}. Arguments f_charset {charset}.
