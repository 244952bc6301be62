(** Loading schemas, ngoschema/loaders/schemas.py and loaders/module.py. *)
From Verif Require Export Base Ns_Model.
Local Open Scope char_scope. Local Open Scope list_scope.

(** What loading looks at in a schema: the texts under "$id", "id" and "title"; [sc_body] is the rest *)
Record schema := { sc_did : option str; sc_id : option str; sc_title : option str; sc_body : nat }.
(** jsonschema's SchemaError *)
Definition SchemaError : exn := UserError 63.

(** [s.rstrip('#')] *)
Fixpoint rstrip_hash (s : str) : str :=
  match s with
  | [] => []
  | c :: s' => match rstrip_hash s' with [] => if Ascii.eqb c "#" then [] else [c] | r => c :: r end
  end.

Section Load.
  (** key_modifier of UriDict (utils/utils.py:202-206) and inflection.parameterize(text, "_"), arbitrary *)
  Context {Q : Type} {EQ : EqDec Q}.
  Variable norm : str -> Q.
  Variable param : str -> str.

  (** the document store of UriResolver and the store given by the caller (a plain dictionary), if any *)
  Record stores := { st_main : dict Q schema; st_user : option (dict str schema) }.

  (** schemas.py:25-26 _id_of *)
  Definition id_of (s : schema) : option str := match sc_did s with Some i => Some i | None => sc_id s end.
  (** 40-46 *)
  Definition schema_uri (s : schema) : res str :=
    match id_of s with
    | None => Err AttributeError                              (* None.rstrip *)
    | Some i =>
        let uri := match rstrip_hash i, sc_title s with [], Some t => param t | u, _ => u end in
        match uri with [] => Err SchemaError | _ => Ok uri end
    end.
  (** 29-54 load_schema; the comparison of line 48 only decides about a log message. resolvers/uri_resolver.py:104-106
      register_doc *)
  Definition load_schema (s : schema) (st : stores) : res (str * stores) :=
    do uri <- schema_uri s;
    Ok (uri, {| st_main := dset (norm uri) s (st_main st); st_user := match st_user st with Some u => Some (dset uri s u) | None => None end |}).
  (** a schema file: its name without extension, and its content if it can be read as a JSON object *)
  Record file := { f_stem : str; f_schema : option schema }.
  (** 57-80 load_schema_file *)
  Definition named (f : file) (s : schema) : schema :=
    {| sc_did := match sc_did s with Some i => Some i | None => Some (f_stem f) end; sc_id := sc_id s; sc_title := sc_title s; sc_body := sc_body s |}.
  Definition load_file (f : file) (st : stores) : res (str * stores) :=
    match f_schema f with Some s => load_schema (named f s) st | None => Err ValueError end.
  (** module.py:86-117 load_module_schemas: errors are logged. Simplification: [files] is what list_files returns *)
  Definition load_one (st : stores) (f : file) : stores := match load_file f st with Ok (_, st') => st' | Err _ => st end.
  Definition load_files (files : list file) (st : stores) : stores := fold_left load_one files st.
End Load.

(** * GenericModuleFileLoader (module.py:18-67) *)
Section Folders.
  (** folders, whether they exist, and what PathList.pick_first (library ngofile) finds in one folder *)
  Context {F : Type} {EF : EqDec F}.
  Variable exists_ : F -> bool.
  Variable holds : F -> str -> option str.
  (** 27-39 register, with the folder of the module *)
  Definition register_folder (m : str) (f : F) (reg : dict str (list F)) : dict str (list F) :=
    if exists_ f then
      let l := match dget m reg with Some l => l | None => [] end in
      dset m (if mem f l then l else l ++ [f]) reg
    else reg.
  Fixpoint pick_first (l : list F) (path : str) : option str :=
    match l with [] => None | f :: l' => match holds f path with Some p => Some p | None => pick_first l' path end end.
  (** [name.split('/', 1)] *)
  Fixpoint split_first (s : str) : option (str * str) :=
    match s with
    | [] => None
    | c :: s' => if Ascii.eqb c "/" then Some ([], s') else match split_first s' with Some (a, b) => Some (c :: a, b) | None => None end
    end.
  Definition slashes (s : str) : str := map (fun c => if Ascii.eqb c "\" then "/" else c) s.
  (** 54-67 find_one *)
  Definition find_one (reg : dict str (list F)) (name : str) : option str :=
    let name := slashes name in
    let everywhere := pick_first (concat (map snd reg)) name in
    match split_first name with
    | Some (m, path) => match dget m reg with Some l => pick_first l path | None => everywhere end
    | None => everywhere
    end.
End Folders.
