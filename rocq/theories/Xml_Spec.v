(** Specification vocabulary for Xml_Props: XML elements, their events, and the dictionary form of an element. *)
From Verif Require Export Xml_Model Types_Spec.
Local Open Scope char_scope.
Local Open Scope list_scope.

(** An element: attributes, a first text, and children, each with its name and the text after it. *)
Inductive xml := Xml (attrs : dict str str) (first : str) (kids : list (str * xml * str)).

Fixpoint events (name : str) (x : xml) : list event :=
  match x with
  | Xml attrs first kids =>
      Start name attrs :: Chars first ::
      flat_map (fun k => events (fst (fst k)) (snd (fst k)) ++ [Chars (snd k)]) kids ++ [End name]
  end.

(** names an XML element can have: not the special keys of the dictionary form *)
Definition TagName (k : str) : Prop := k <> chars "#text" /\ k <> chars "#tail" /\ forall s, k <> "@" :: s.
Inductive XmlOk : xml -> Prop :=
| XmlOk_intro attrs first kids : NoDup (map fst attrs) ->
    (forall k, In k kids -> TagName (fst (fst k)) /\ XmlOk (snd (fst k))) -> XmlOk (Xml attrs first kids).

Section Form.
  Variable force : str -> bool.
  (** the values of the children of one name: a list when there are several, or when asked *)
  Definition one (k : str) (vs : list xval) : xval :=
    match vs with [v] => if force k then XList [v] else v | _ => XList vs end.
  (** one entry per name, in order of first appearance *)
  Definition grouped (kids : list (str * xval)) : dict str xval :=
    map (fun k => (k, one k (map snd (filter (fun kv => beq (fst kv) k) kids)))) (dedup (map fst kids)).
  Definition text_entry (key : str) (t : option str) : dict str xval :=
    match t with Some (c :: s) => [(key, one key [XStr (c :: s)])] | _ => [] end.
  Definition attribute_entries (attrs : dict str str) : dict str xval := map (fun kv => ("@" :: fst kv, XStr (snd kv))) attrs.
  Definition not_empty (s : str) : bool := match s with [] => false | _ => true end.

  (** the value of an element: a text when it has neither attributes nor children, else a dictionary of its attributes,
      its children by name, its first text and its second one *)
  Fixpoint value_of (x : xml) : xval :=
    match x with
    | Xml attrs first kids =>
        let texts := map (strip whitespace) (filter not_empty (first :: map snd kids)) in
        match attrs, kids with
        | [], [] => XStr (concat texts)
        | _, _ => XDict (attribute_entries attrs ++ grouped (map (fun k => (fst (fst k), value_of (snd (fst k)))) kids)
                         ++ text_entry (chars "#text") (nth_error texts 0) ++ text_entry (chars "#tail") (nth_error texts 1))
        end
    end.
End Form.

(** Data that can be written and read back: texts, and elements with attributes, children by name, a text and a tail
    (empty: absent). *)
Inductive elem := Leaf (s : str) | Elt (attrs : dict str str) (kids : list (str * list elem)) (text tail : str).
Fixpoint form (force : str -> bool) (e : elem) : xval :=
  match e with
  | Leaf s => XStr s
  | Elt attrs kids text tail =>
      XDict (attribute_entries attrs ++ map (fun k => (fst k, one force (fst k) (map (form force) (snd k)))) kids
             ++ text_entry force (chars "#text") (Some text) ++ text_entry force (chars "#tail") (Some tail))
  end.
(** texts are trimmed; a dictionary has an attribute or a child; each child name once, with at least one element; a tail
    only after a text and a child, and not when pretty-printing *)
Inductive ElemOk (pretty : bool) : elem -> Prop :=
| LeafOk s : trimmed s -> ElemOk pretty (Leaf s)
| EltOk attrs kids text tail : NoDup (map fst attrs) -> NoDup (map fst kids) -> (attrs <> [] \/ kids <> []) ->
    (forall k es, In (k, es) kids -> TagName k /\ es <> [] /\ forall e, In e es -> ElemOk pretty e) ->
    trimmed text -> trimmed tail -> (tail <> [] -> text <> [] /\ kids <> [] /\ pretty = false) ->
    ElemOk pretty (Elt attrs kids text tail).
Definition Blank (s : str) : Prop := forall c, In c s -> In c whitespace.

(** the text of an attribute: how Python prints the value; [repr] for a list or a dictionary *)
Inductive Printed (repr : xval -> str) : xval -> str -> Prop :=
| PStr s : Printed repr (XStr s) s
| PAtom s : Printed repr (XAtom s) s
| PTrue : Printed repr (XBool true) (chars "True")
| PFalse : Printed repr (XBool false) (chars "False")
| PNone : Printed repr XNone (chars "None")
| PList l : Printed repr (XList l) (repr (XList l))
| PDict l : Printed repr (XDict l) (repr (XDict l)).
(** the text of an element that is not a dictionary: true and false in lower case, nothing for None *)
Inductive Written (repr : xval -> str) : xval -> list event -> Prop :=
| WStr s : Written repr (XStr s) [Chars s]
| WAtom s : Written repr (XAtom s) [Chars s]
| WTrue : Written repr (XBool true) [Chars (chars "true")]
| WFalse : Written repr (XBool false) [Chars (chars "false")]
| WNone : Written repr XNone [].
