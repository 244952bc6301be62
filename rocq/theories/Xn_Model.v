(** ngoschema/utils/xmltodict.py: names in namespaces. Reading with [process_namespaces] ([_build_name] 68-82, [startNamespaceDecl]
    89-90, [startElement] 92-115, [parse] 318-331) and writing with [namespaces] ([_process_namespace] 354-366, [_emit] 382-449). The XML
    library (expat given a separator) is modelled by [scan]: it keeps the declarations in scope, reports those of an element before the
    element, and replaces prefixes by the declared names; it refuses what is not in order. Simplifications: the separator is one
    character; the library accepts the prefix 'xml' declared with its own name, [scan] does not. The rest is as in Xml_Model. *)
From Verif Require Import Base Coll_Model.
From Verif Require Export Xml_Model.
Local Open Scope char_scope.
Local Open Scope list_scope.

(** [rfind] and [rsplit(sep, 1)] (71-74, 358): the parts before and after the last separator *)
Fixpoint rcut (sep : ascii) (s : str) : option (str * str) :=
  match s with
  | [] => None
  | c :: s' => match rcut sep s' with Some (a, b) => Some (c :: a, b) | None => if beq c sep then Some ([], s') else None end
  end.
(** the first one *)
Fixpoint cut (sep : ascii) (s : str) : option (str * str) :=
  match s with
  | [] => None
  | c :: s' => if beq c sep then Some ([], s') else match cut sep s' with Some (a, b) => Some (c :: a, b) | None => None end
  end.

(** * The library *)
Inductive nev := NDecl (prefix : str) (uri : xval) | NStart (name : str) (attrs : dict str str) | NEnd (name : str) | NChars (s : str).
Definition scope := dict str str.
Definition xml_uri : str := chars "http://www.w3.org/XML/1998/namespace".
Definition start_scope : scope := [(chars "xml", xml_uri)].

(** a name with or without a prefix: at most one colon, not at an end *)
Definition qname (s : str) : option (str * str) :=
  match cut ":" s with
  | None => match s with [] => None | _ => Some ([], s) end
  | Some (p, l) => match p, l with [], _ | _, [] => None | _, _ => if mem ":" l then None else Some (p, l) end
  end.
Fixpoint distinct (l : list str) : bool := match l with [] => true | x :: l' => negb (mem x l') && distinct l' end.

Section Scan.
  Variable sep : ascii.
  Definition element_name (sc : scope) (n : str) : option str :=
    match qname n with
    | None => None
    | Some (p, l) => match dget p sc with
                     | Some (c :: u) => Some ((c :: u) ++ sep :: l)
                     | Some [] | None => match p with [] => Some l | _ => None end
                     end
    end.
  (** an attribute without prefix is in no namespace *)
  Definition attribute_name (sc : scope) (n : str) : option str :=
    match qname n with
    | None => None
    | Some (p, l) => match p with [] => Some l | _ => match dget p sc with Some u => Some (u ++ sep :: l) | None => None end end
    end.
  (** xmlns="..." and xmlns:p="..." *)
  Definition declares (n : str) : option str :=
    match qname n with
    | None => None
    | Some (p, l) => match p with
                     | [] => if beq l (chars "xmlns") then Some [] else None
                     | _ => if beq p (chars "xmlns") then Some l else None
                     end
    end.
  Definition may_declare (p u : str) : bool :=
    negb (beq p (chars "xml")) && negb (beq p (chars "xmlns")) && match u with [] => beq p [] | _ => true end.
  (** the scope inside the element, and what is reported: None for an empty name *)
  Fixpoint declare (attrs : dict str str) (sc : scope) : option (scope * list nev) :=
    match attrs with
    | [] => Some (sc, [])
    | (k, u) :: l =>
        match declares k with
        | Some p => if may_declare p u then
                      match declare l (dset p u sc) with
                      | Some (sc', evs) => Some (sc', NDecl p (match u with [] => XNone | _ => XStr u end) :: evs)
                      | None => None
                      end
                    else None
        | None => declare l sc
        end
    end.
  Fixpoint attributes (attrs : dict str str) (sc : scope) : option (dict str str) :=
    match attrs with
    | [] => Some []
    | (k, v) :: l =>
        match declares k with
        | Some _ => attributes l sc
        | None => match attribute_name sc k, attributes l sc with Some k', Some l' => Some ((k', v) :: l') | _, _ => None end
        end
    end.
  (** [stack]: the scope around each open element, and its full name. None: the document is refused. *)
  Fixpoint scan (sc : scope) (stack : list (scope * str)) (evs : list event) : option (list nev) :=
    match evs with
    | [] => Some []
    | Chars s :: evs' => match scan sc stack evs' with Some r => Some (NChars s :: r) | None => None end
    | Start n attrs :: evs' =>
        match declare attrs sc with
        | None => None
        | Some (sc', ds) =>
            match element_name sc' n, attributes attrs sc' with
            | Some n', Some attrs' =>
                if distinct (map fst attrs') then
                  match scan sc' ((sc, n') :: stack) evs' with Some r => Some (ds ++ NStart n' attrs' :: r) | None => None end
                else None
            | _, _ => None
            end
        end
    | End _ :: evs' =>
        match stack with
        | [] => None
        | (sc0, n') :: stack' => match scan sc0 stack' evs' with Some r => Some (NEnd n' :: r) | None => None end
        end
    end.
End Scan.

(** * Reading *)
Section Read.
  Variable sep : ascii.
  (** [namespaces] (82): None, or short names, of which an empty one (or None) drops the namespace *)
  Variable short : option (dict str str).
  Variable force : str -> bool.

  (** 68-82 *)
  Definition build_name (full : str) : str :=
    match short with
    | None => full
    | Some m =>
        match rcut sep full with
        | None => full
        | Some (ns, name) => match (match dget ns m with Some s => s | None => ns end) with [] => name | s => s ++ sep :: name end
        end
    end.
  Record nstate := { n_st : pstate; n_decls : dict str xval }.
  (** 94-97: the declarations become an attribute, if there is another one *)
  Definition with_decls (attrs : dict str xval) (decls : dict str xval) : dict str xval * dict str xval :=
    match attrs, decls with
    | [], _ | _, [] => (attrs, decls)
    | _, _ => (dset (chars "xmlns") (XDict decls) attrs, [])
    end.
  (** 101-115 *)
  Definition entries (attrs : dict str xval) : dict str xval :=
    fold_left (fun acc kv => dset ("@" :: build_name (fst kv)) (snd kv) acc) attrs [].
  Definition handle_ns (st : nstate) (e : nev) : nstate :=
    match e with
    | NChars s => {| n_st := handle force (n_st st) (Chars s); n_decls := n_decls st |}
    | NDecl p u => {| n_st := flush (n_st st); n_decls := dset p u (n_decls st) |}               (* 89-90 *)
    | NStart full attrs =>
        let s := flush (n_st st) in
        let (attrs', decls') := with_decls (map (fun kv => (fst kv, XStr (snd kv))) attrs) (n_decls st) in
        {| n_st := {| p_buf := []; p_item := match entries attrs' with [] => None | d => Some d end; p_data := [];
                      p_stack := (p_item s, p_data s) :: p_stack s |};
           n_decls := decls' |}
    | NEnd full => {| n_st := end_element force (build_name full) (flush (n_st st)); n_decls := n_decls st |}   (* 117-154 *)
    end.
  Definition parse_ns (evs : list event) : option (option (dict str xval)) :=
    match scan sep start_scope [] evs with
    | None => None
    | Some l => Some (p_item (n_st (fold_left handle_ns l
                  {| n_st := {| p_buf := []; p_item := None; p_data := []; p_stack := [] |}; n_decls := [] |})))
    end.
End Read.

(** * Writing *)
Section Write.
  Variable pretty : bool.
  Variables newl indent : str.
  Variable repr : xval -> str.
  (** [namespaces] (382): prefixes, an empty one for None too; without any, names are left as they are *)
  Variable prefixes : dict str str.

  (** 354-366 *)
  Definition prefixed (name : str) : str :=
    match prefixes with
    | [] => name
    | _ =>
        match rcut ":" name with
        | None => name
        | Some (ns, l) =>
            match dget (strip ["@"] ns) prefixes with
            | Some (c :: p) => (if is_attr ns then ["@"] else []) ++ (c :: p) ++ ":" :: l
            | _ => l
            end
        end
    end.
  (** 411-428: the tests on the key come before it is changed, but for that of '@xmlns' *)
  Fixpoint attrs_ns (l : dict str xval) (acc : dict str str) : dict str str :=
    match l with
    | [] => acc
    | (k, v) :: l' =>
        if beq k cdata_key || beq k tail_key || negb (is_attr k) then attrs_ns l' acc
        else match v with
             | XDict ns => if beq (prefixed k) (chars "@xmlns") then attrs_ns l' (xmlns_attrs repr ns acc)
                           else attrs_ns l' (dset (tl (prefixed k)) (attr_text repr v) acc)
             | _ => attrs_ns l' (dset (tl (prefixed k)) (attr_text repr v) acc)
             end
    end.
  Fixpoint emit_ns (depth : nat) (key : str) (v : xval) : res (list event) :=
    match v with
    | XDict l =>
        element pretty newl indent depth (prefixed key) (attrs_ns l []) (dget cdata_key l) (dget tail_key l) (existsb (fun kv => is_child (fst kv)) l)
          ((fix kids (l : dict str xval) : res (list event) :=
              match l with
              | [] => Ok []
              | (k, x) :: l' =>
                  if is_child k then
                    do a <- match x with
                            | XList xs => (fix each (xs : list xval) : res (list event) :=
                                             match xs with [] => Ok [] | y :: xs' => do a <- emit_ns (S depth) k y; do b <- each xs'; Ok (a ++ b) end) xs
                            | _ => emit_ns (S depth) k x
                            end;
                    do b <- kids l'; Ok (a ++ b)
                  else kids l'
              end) l)
    | XNone => element pretty newl indent depth (prefixed key) [] None None false (Ok [])
    | XBool b => element pretty newl indent depth (prefixed key) [] (Some (XStr (if b then chars "true" else chars "false"))) None false (Ok [])
    | XStr s | XAtom s => element pretty newl indent depth (prefixed key) [] (Some (XStr s)) None false (Ok [])
    | XList l => element pretty newl indent depth (prefixed key) [] (Some (XStr (repr v))) None false (Ok [])
    end.
  (** 391-395, 455-491 *)
  Definition unparse_ns (input : dict str xval) : res (list event) :=
    match input with
    | [(key, value)] =>
        match value with
        | XList [] => Ok []
        | XList [v] => emit_ns 0 key v
        | XList (v :: _ :: _) => do _ <- emit_ns 0 key v; Err ValueError
        | v => emit_ns 0 key v
        end
    | _ => Err ValueError
    end.
End Write.
