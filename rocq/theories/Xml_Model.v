(** ngoschema/utils/xmltodict.py: [unparse] (dictionary to XML) and [parse] (XML to dictionary), on the events exchanged
    with the XML library, and serializers/xml_serializer.py:92-117. Not modelled: the text of the document (XMLGenerator and
    expat are taken to carry names, attributes and character data faithfully, expat joining adjacent character data because
    of [buffer_text], line 326), comments, processed namespaces, pre- and postprocessors, [item_depth] (0 here). *)
From Verif Require Export Str_Model Ns_Model.
Local Open Scope char_scope.
Local Open Scope list_scope.

(** dictionaries of the library: [XAtom s] is any other value (number, date...) whose [str()] is [s] *)
Inductive xval :=
| XNone
| XBool (b : bool)
| XStr (s : str)
| XAtom (s : str)
| XDict (l : dict str xval)
| XList (l : list xval).

Inductive event := Start (name : str) (attrs : dict str str) | End (name : str) | Chars (s : str).

Definition cdata_key : str := chars "#text".
Definition tail_key : str := chars "#tail".
Definition is_attr (k : str) : bool := match k with c :: _ => beq c "@" | [] => false end.     (* startswith('@') *)
Definition is_child (k : str) : bool := negb (beq k cdata_key) && negb (beq k tail_key) && negb (is_attr k).

Section Options.
  Variable pretty : bool.
  Variables newl indent : str.
  (** [str(v)] of a list or a dictionary (406, 424) *)
  Variable repr : xval -> str.
  (** [force_list] (188-196), as a test on the key *)
  Variable force : str -> bool.

  (** * Emitting (369-452) *)
  (** [str(iv)] of an attribute value (423-424) *)
  Definition attr_text (v : xval) : str :=
    match v with
    | XStr s | XAtom s => s
    | XBool b => if b then chars "True" else chars "False"
    | XNone => chars "None"
    | XDict _ | XList _ => repr v
    end.
  (** 417-422: the '@xmlns' dictionary gives one attribute per prefix *)
  Fixpoint xmlns_attrs (l : dict str xval) (acc : dict str str) : dict str str :=
    match l with
    | [] => acc
    | (k, v) :: l' => xmlns_attrs l' (dset (chars "xmlns" ++ match k with [] => [] | _ => ":" :: k end) (attr_text v) acc)
    end.
  (** 411-428, attributes *)
  Fixpoint attrs_of (l : dict str xval) (acc : dict str str) : dict str str :=
    match l with
    | [] => acc
    | (k, v) :: l' =>
        if beq k cdata_key || beq k tail_key || negb (is_attr k) then attrs_of l' acc
        else match v with
             | XDict ns => if beq k (chars "@xmlns") then attrs_of l' (xmlns_attrs ns acc) else attrs_of l' (dset (tl k) (attr_text v) acc)
             | _ => attrs_of l' (dset (tl k) (attr_text v) acc)
             end
    end.
  (** 408-416, [content_handler.characters(text)] (434-435, 445-446): None writes nothing, nor does XMLGenerator for
      what is false; it raises TypeError on the rest that is not a text (simplification: also on a number zero) *)
  Definition text_events (v : option xval) : res (list event) :=
    match v with
    | None | Some (XNone | XBool false | XDict [] | XList []) => Ok []
    | Some (XStr s) => Ok [Chars s]
    | Some _ => Err TypeError
    end.
  Fixpoint repeat_text (n : nat) (s : str) : str := match n with 0 => [] | S n' => s ++ repeat_text n' s end.
  (** 429-449: one element *)
  Definition element (depth : nat) (key : str) (attrs : dict str str) (text tail : option xval) (has_children : bool)
      (kids : res (list event)) : res (list event) :=
    do t <- text_events text; do ks <- kids; do tl <- text_events tail;
    Ok ((if pretty then [Chars (repeat_text depth indent)] else []) ++
        [Start key attrs] ++
        (if pretty && has_children then [Chars newl] else []) ++ t ++ ks ++
        (if pretty && has_children then [Chars (repeat_text depth indent)] else []) ++ tl ++
        [End key] ++
        (if pretty && negb (Nat.eqb depth 0) then [Chars newl] else [])).
  Fixpoint emit_one (depth : nat) (key : str) (v : xval) : res (list event) :=
    match v with
    | XDict l =>
        element depth key (attrs_of l []) (dget cdata_key l) (dget tail_key l) (existsb (fun kv => is_child (fst kv)) l)
          ((fix kids (l : dict str xval) : res (list event) :=
              match l with
              | [] => Ok []
              | (k, x) :: l' =>
                  if is_child k then
                    do a <- match x with
                            | XList xs => (fix each (xs : list xval) : res (list event) :=
                                             match xs with [] => Ok [] | y :: xs' => do a <- emit_one (S depth) k y; do b <- each xs'; Ok (a ++ b) end) xs
                            | _ => emit_one (S depth) k x
                            end;
                    do b <- kids l'; Ok (a ++ b)
                  else kids l'
              end) l)
    | XNone => element depth key [] None None false (Ok [])                                     (* 396-397 *)
    | XBool b => element depth key [] (Some (XStr (if b then chars "true" else chars "false"))) None false (Ok [])
    | XStr s | XAtom s => element depth key [] (Some (XStr s)) None false (Ok [])               (* 406-407 *)
    | XList l => element depth key [] (Some (XStr (repr v))) None false (Ok [])
    end.
  (** 391-395 at depth 0 with [full_document] *)
  Definition emit_root (key : str) (value : xval) : res (list event) :=
    match value with
    | XList [] => Ok []
    | XList [v] => emit_one 0 key v
    | XList (v :: _ :: _) => do _ <- emit_one 0 key v; Err ValueError
    | v => emit_one 0 key v
    end.
  (** 455-491, [full_document] *)
  Definition unparse (input : dict str xval) : res (list event) :=
    match input with
    | [(key, value)] => emit_root key value
    | _ => Err ValueError                                                                            (* 469-470 *)
    end.

  (** * Parsing (31-196) *)
  (** [p_buf]: the character data expat has not reported yet *)
  Record pstate := {
    p_buf : str;
    p_item : option (dict str xval);
    p_data : list str;
    p_stack : list (option (dict str xval) * list str)
  }.
  (** 167-186, without postprocessor *)
  Definition push_data (item : option (dict str xval)) (key : str) (data : xval) : dict str xval :=
    let item := match item with Some d => d | None => [] end in
    match dget key item with
    | Some (XList l) => dset key (XList (l ++ [data])) item
    | Some v => dset key (XList [v; data]) item
    | None => dset key (if force key then XList [data] else data) item
    end.
  (** 156-160 [characters], called with the joined character data before the next tag *)
  Definition flush (st : pstate) : pstate :=
    match p_buf st with
    | [] => st
    | b => {| p_buf := []; p_item := p_item st; p_data := p_data st ++ [b]; p_stack := p_stack st |}
    end.
  (** 98-115: the attributes become the first entries; no attribute: no dictionary yet *)
  Definition attr_entries (attrs : dict str str) : dict str xval :=
    fold_left (fun acc kv => dset ("@" :: fst kv) (XStr (snd kv)) acc) attrs [].
  Definition start_element (attrs : dict str str) (st : pstate) : pstate :=
    {| p_buf := []; p_item := match attr_entries attrs with [] => None | d => Some d end; p_data := [];
       p_stack := (p_item st, p_data st) :: p_stack st |}.
  (** 127-154. The tail is put in the dictionary after it was put in its parent: the same object. *)
  Definition end_element (name : str) (st : pstate) : pstate :=
    match p_stack st with
    | [] => {| p_buf := []; p_item := None; p_data := []; p_stack := [] |}
    | (item0, data0) :: stack =>
        let data := map (strip whitespace) (p_data st) in
        let value :=
          match p_item st with
          | Some d =>
              let d1 := match data with t :: _ => match t with [] => d | _ => push_data (Some d) cdata_key (XStr t) end | [] => d end in
              let d2 := match data with _ :: t :: _ => match t with [] => d1 | _ => push_data (Some d1) tail_key (XStr t) end | _ => d1 end in
              XDict d2
          | None => XStr (concat data)
          end in
        {| p_buf := []; p_item := Some (push_data item0 name value); p_data := data0; p_stack := stack |}
    end.
  Definition handle (st : pstate) (e : event) : pstate :=
    match e with
    | Chars s => {| p_buf := p_buf st ++ s; p_item := p_item st; p_data := p_data st; p_stack := p_stack st |}
    | Start name attrs => start_element attrs (flush st)
    | End name => end_element name (flush st)
    end.
  Definition parse (evs : list event) : option (dict str xval) :=
    p_item (fold_left handle evs {| p_buf := []; p_item := None; p_data := []; p_stack := [] |}).
End Options.

(** * XmlSerializer (serializers/xml_serializer.py:98-117) *)
(** the keywords it gives to [unparse], and those [unparse] and [_emit] accept (369-382, 455-457); [unparse] passes the
    ones it does not know to [_emit], which has no catch-all *)
Definition given_keywords : list string :=
  ["attr_prefix"; "cdata_key"; "force_list"; "pretty"; "indent"; "newl"; "short_empty_elements"]%string.
Definition accepted_keywords : list string :=
  ["output"; "encoding"; "full_document"; "short_empty_elements";
   "attr_prefix"; "cdata_key"; "cdata_tail_key"; "depth"; "preprocessor"; "pretty"; "newl"; "indent"; "namespace_separator";
   "namespaces"; "expand_iter"]%string.
Definition xml_serialize (newl indent : str) (repr : xval -> str) (tag : str) (value : xval) : res (list event) :=
  if forallb (fun k => mem k accepted_keywords) given_keywords
  then unparse true newl indent repr [(tag, value)]
  else Err TypeError.
