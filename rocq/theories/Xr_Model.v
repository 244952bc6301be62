(** serializers/xml_serializer.py:38-59: reading a document and taking the content of its root, with the tag the reader
    remembers. The reader of a file repository is the class itself (protocols/file_loader.py:66,
    protocols/serializer.py:48-53), so what it remembers is kept for every later document of the process. Not modelled:
    the options of a call (encoding, namespaces, comments; see Xml_Model). *)
From Verif Require Import Base.
From Verif Require Export Xml_Model.
Local Open Scope list_scope.

(** [_tag] (67, 79): None or a text; an empty text counts as none (54) *)
Definition remembered (tag : option str) : option str := match tag with Some [] => None | t => t end.

Section Reader.
  (** [force_list] (45) *)
  Variable force : str -> bool.

  (** 54-58: the tag after the call, and an error. [raise NotImplemented(...)] calls a constant that is not a function. *)
  Definition find_tag (tag : option str) (value : option (dict str xval)) : option str * res str :=
    match remembered tag with
    | Some t => (tag, Ok t)
    | None =>
        match value with
        | None => (tag, Err AttributeError)
        | Some [(k, _)] => (Some k, Ok k)
        | Some _ => (tag, Err TypeError)
        end
    end.
  (** 39-59: the tag after the call, and the value read *)
  Definition xml_read (tag : option str) (evs : list event) : option str * res xval :=
    let value := parse force evs in
    let '(tag', t) := find_tag tag value in
    (tag', do t <- t;
           match value with
           | None => Err TypeError
           | Some d => match dget t d with Some v => Ok v | None => Err KeyError end
           end).
  (** any number of documents, one after the other *)
  Fixpoint read_all (tag : option str) (docs : list (list event)) : option str * list (res xval) :=
    match docs with
    | [] => (tag, [])
    | evs :: docs' =>
        let '(tag1, r) := xml_read tag evs in
        let '(tag2, rs) := read_all tag1 docs' in (tag2, r :: rs)
    end.

  (** 76-80 with [tag] given or not and no instance class, then one reading: a reader made for one document *)
  Definition read_fresh (tag : option str) (evs : list event) : res xval := snd (xml_read tag evs).
End Reader.

(** the class's [_forceList] (20-23) *)
Definition schema_tags : list string :=
  ["include"; "import"; "element"; "unique"; "simpleType"; "attributeGroup"; "group"; "complexType"; "restriction"]%string.
Definition default_force (k : str) : bool :=
  existsb (fun t => beq k (chars t)) schema_tags || existsb (fun t => beq k (chars "xs:" ++ chars t)) schema_tags.
