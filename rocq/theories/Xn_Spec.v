(** Specification vocabulary for Xn_Props: what the names of a document stand for, and the dictionary form of a document in namespaces. *)
From Verif Require Import Base Xml_Model Xml_Spec.
Local Open Scope char_scope.
Local Open Scope list_scope.

(** a name: its namespace (empty: none) and the name in it *)
Definition name : Type := str * str.
(** an element of a document whose names are known: the declarations it makes, its attributes, its first text, its children with the texts
    after them *)
Inductive nxml := NX (decls : dict str xval) (attrs : list (name * str)) (first : str) (kids : list (name * nxml * str)).

(** * What names stand for *)
(** the namespace each prefix stands for; the empty prefix for names without one *)
Definition known := str -> option str.
Definition at_start : known := fun p => if eq_dec p (chars "xml") then Some (chars "http://www.w3.org/XML/1998/namespace") else None.
(** the attribute that declares a prefix *)
Definition decl_key (p : str) : str := match p with [] => chars "xmlns" | _ => chars "xmlns:" ++ p end.
Definition inside (attrs : dict str str) (sc : known) : known := fun p => match dget (decl_key p) attrs with Some u => Some u | None => sc p end.
Definition Ident (s : str) : Prop := s <> [] /\ ~ In ":" s.
(** a declaration in order: of an empty namespace only without prefix *)
Definition DeclOk (d : str * str) : Prop :=
  ~ In ":" (fst d) /\ fst d <> chars "xml" /\ fst d <> chars "xmlns" /\ (snd d = [] -> fst d = []).
Inductive ElementName (sc : known) : str -> name -> Prop :=
| en_none l : Ident l -> (sc [] = None \/ sc [] = Some []) -> ElementName sc l ([], l)
| en_default l u : Ident l -> sc [] = Some u -> u <> [] -> ElementName sc l (u, l)
| en_prefix p l u : Ident p -> Ident l -> sc p = Some u -> u <> [] -> ElementName sc (p ++ ":" :: l) (u, l).
Inductive AttributeName (sc : known) : str -> name -> Prop :=
| an_none l : Ident l -> l <> chars "xmlns" -> AttributeName sc l ([], l)
| an_prefix p l u : Ident p -> p <> chars "xmlns" -> Ident l -> sc p = Some u -> u <> [] -> AttributeName sc (p ++ ":" :: l) (u, l).
(** the attributes of an element are the declarations and the others, in any order, all different *)
Inductive Sorted_out (sc : known) : dict str str -> dict str str -> list (name * str) -> Prop :=
| so_nil : Sorted_out sc [] [] []
| so_decl p u attrs ds ats : DeclOk (p, u) -> Sorted_out sc attrs ds ats -> Sorted_out sc ((decl_key p, u) :: attrs) ((p, u) :: ds) ats
| so_attr k n v attrs ds ats : AttributeName sc k n -> Sorted_out sc attrs ds ats -> Sorted_out sc ((k, v) :: attrs) ds ((n, v) :: ats).
(** an empty namespace is reported as None *)
Definition reported (ds : dict str str) : dict str xval := map (fun d => (fst d, match snd d with [] => XNone | _ => XStr (snd d) end)) ds.
(** the element [x] of name [n] in the document stands for [y] of name [m] *)
Inductive Means : known -> str -> xml -> name -> nxml -> Prop :=
| means sc n attrs first kids m ds ats kids' :
    NoDup (map fst attrs) -> Sorted_out (inside attrs sc) attrs ds ats -> NoDup (map fst ats) -> ElementName (inside attrs sc) n m ->
    MeanKids (inside attrs sc) kids kids' -> Means sc n (Xml attrs first kids) m (NX (reported ds) ats first kids')
with MeanKids : known -> list (str * xml * str) -> list (name * nxml * str) -> Prop :=
| mean_nil sc : MeanKids sc [] []
| mean_cons sc n x t kids m y kids' : Means sc n x m y -> MeanKids sc kids kids' -> MeanKids sc ((n, x, t) :: kids) ((m, y, t) :: kids').

(** * The dictionary form *)
Section Form.
  Variable sep : ascii.
  Variable short : option (dict str str).
  Variable force : str -> bool.
  (** the full name, or the short name given to its namespace; an empty one drops it *)
  Definition full (n : name) : str := match fst n with [] => snd n | u => u ++ sep :: snd n end.
  Definition written (n : name) : str :=
    match short, fst n with
    | Some m, (_ :: _) as u => match dget u m with Some [] => snd n | Some s => s ++ sep :: snd n | None => full n end
    | _, _ => full n
    end.
  (** as in Xml_Spec, the declarations coming after the attributes *)
  Fixpoint shown (x : nxml) : xval :=
    match x with
    | NX ds attrs first kids =>
        let texts := map (strip whitespace) (filter not_empty (first :: map snd kids)) in
        match ds, attrs, kids with
        | [], [], [] => XStr (concat texts)
        | _, _, _ => XDict (map (fun a => ("@" :: written (fst a), XStr (snd a))) attrs ++ (match ds with [] => [] | _ => [(chars "@xmlns", XDict ds)] end)
                        ++ grouped force (map (fun k => (written (fst (fst k)), shown (snd (fst k)))) kids)
                        ++ text_entry force (chars "#text") (nth_error texts 0) ++ text_entry force (chars "#tail") (nth_error texts 1))
        end
    end.
  (** names in use: no separator in them; written differently on one element; no child written as a special key *)
  Inductive NOk : nxml -> Prop :=
  | NOk_intro ds attrs first kids : NoDup (map (fun a => written (fst a)) attrs) ->
      (forall a, In a attrs -> ~ In sep (snd (fst a)) /\ written (fst a) <> chars "xmlns") ->
      (forall k, In k kids -> ~ In sep (snd (fst (fst k))) /\ TagName (written (fst (fst k))) /\ NOk (snd (fst k))) -> NOk (NX ds attrs first kids).
End Form.

(** names without separator *)
Inductive Local (sep : ascii) : nxml -> Prop :=
| Local_intro ds attrs first kids : (forall a, In a attrs -> ~ In sep (snd (fst a))) ->
    (forall k, In k kids -> ~ In sep (snd (fst (fst k))) /\ Local sep (snd (fst k))) -> Local sep (NX ds attrs first kids).

(** where declarations are found: on the element that makes them, or, as it has no attribute, on the next one that has *)
Definition update (d e : dict str xval) : dict str xval := fold_left (fun acc kv => dset (fst kv) (snd kv) acc) e d.
Fixpoint place (pend : dict str xval) (x : nxml) : nxml * dict str xval :=
  match x with
  | NX ds attrs first kids =>
      let go := fix go (kids : list (name * nxml * str)) (pend : dict str xval) : list (name * nxml * str) * dict str xval :=
        match kids with
        | [] => ([], pend)
        | (n, k, t) :: r => let (k', p1) := place pend k in let (r', p2) := go r p1 in ((n, k', t) :: r', p2)
        end in
      match attrs with
      | [] => let (ks, p) := go kids (update pend ds) in (NX [] [] first ks, p)
      | _ => let (ks, p) := go kids [] in (NX (update pend ds) attrs first ks, p)
      end
  end.
(** every element that declares has an attribute too *)
Inductive Kept : nxml -> Prop :=
| Kept_intro ds attrs first kids : (ds <> [] -> attrs <> []) -> (forall k, In k kids -> Kept (snd (fst k))) -> Kept (NX ds attrs first kids).
(** no element has an attribute *)
Inductive Bare : nxml -> Prop :=
| Bare_intro ds first kids : (forall k, In k kids -> Bare (snd (fst k))) -> Bare (NX ds [] first kids).

(** * Writing *)
Section Prefixes.
  (** the prefix of each namespace; the namespace of each prefix, as declared *)
  Variables prefixes declared : dict str str.
  (** declarations in order, of all the prefixes used *)
  Definition Agree : Prop := dwf declared /\ prefixes <> [] /\ (forall d, In d declared -> DeclOk d /\ snd d <> []) /\
    forall u p, dget u prefixes = Some p -> dget p declared = Some u.
  (** not beginning or ending with the mark of attributes *)
  Definition Unmarked (u : str) : Prop := (forall s, u <> "@" :: s) /\ forall s, u <> s ++ ["@"].
  (** names of elements and attributes as they stand in dictionaries: in a namespace with a prefix (for attributes, not the empty one), or
      in none; an element is in none only if there is no default namespace *)
  Inductive ElementKey : str -> Prop :=
  | ek_none l : Ident l -> TagName l -> dget [] declared = None -> ElementKey l
  | ek_in u l p : Ident l -> Unmarked u -> TagName (u ++ ":" :: l) -> dget u prefixes = Some p -> ElementKey (u ++ ":" :: l).
  Inductive AttributeKey : str -> Prop :=
  | ak_none l : Ident l -> l <> chars "xmlns" -> AttributeKey l
  | ak_in u l p : Ident l -> Unmarked u -> dget u prefixes = Some p -> p <> [] -> AttributeKey (u ++ ":" :: l).
  Inductive ValueKeys : xval -> Prop :=
  | vk_none : ValueKeys XNone
  | vk_bool b : ValueKeys (XBool b)
  | vk_str s : ValueKeys (XStr s)
  | vk_atom s : ValueKeys (XAtom s)
  | vk_list l : (forall x, In x l -> ValueKeys x) -> ValueKeys (XList l)
  | vk_dict l : (forall k v, In (k, v) l ->
      k = chars "#text" \/ k = chars "#tail" \/ (exists a, k = "@" :: a /\ AttributeKey a) \/ (ElementKey k /\ ValueKeys v)) -> ValueKeys (XDict l).
  Inductive KeysOk : elem -> Prop :=
  | keys_leaf s : KeysOk (Leaf s)
  | keys_elt attrs kids text tail : (forall k v, In (k, v) attrs -> AttributeKey k) ->
      (forall k es, In (k, es) kids -> ElementKey k /\ forall e, In e es -> KeysOk e) -> KeysOk (Elt attrs kids text tail).
End Prefixes.
(** an element with the declarations after its attributes *)
Definition declaring (force : str -> bool) (declared attrs : dict str str) (kids : list (str * list elem)) (text tail : str) : xval :=
  XDict (attribute_entries attrs ++ [(chars "@xmlns", XDict (map (fun d => (fst d, XStr (snd d))) declared))] ++
         map (fun k => (fst k, one force (fst k) (map (form force) (snd k)))) kids
         ++ text_entry force (chars "#text") (Some text) ++ text_entry force (chars "#tail") (Some tail)).
(** the same document without its declarations *)
Fixpoint quiet (x : nxml) : nxml := match x with NX _ attrs first kids => NX [] attrs first (map (fun k => (fst (fst k), quiet (snd (fst k)), snd k)) kids) end.
(** the attributes of each element all differ *)
Inductive Distinct : xml -> Prop :=
| Distinct_intro attrs first kids : NoDup (map fst attrs) -> (forall k, In k kids -> Distinct (snd (fst k))) -> Distinct (Xml attrs first kids).
(** names as they are written, and documents that differ by them *)
Section Renamed.
  Variables prefixes : dict str str.
  Inductive Tag : str -> str -> Prop :=
  | tag_none l : ~ In ":" l -> Tag l l
  | tag_default u l : ~ In ":" l -> dget u prefixes = Some [] -> Tag (u ++ ":" :: l) l
  | tag_prefix u l p : ~ In ":" l -> dget u prefixes = Some p -> p <> [] -> Tag (u ++ ":" :: l) (p ++ ":" :: l).
  Inductive Renamed : event -> event -> Prop :=
  | ren_start n n' a a' : Tag n n' -> Forall2 (fun x y => Tag (fst x) (fst y) /\ snd x = snd y) a a' -> Renamed (Start n a) (Start n' a')
  | ren_end n n' : Tag n n' -> Renamed (End n) (End n')
  | ren_text s : Renamed (Chars s) (Chars s).
End Renamed.
