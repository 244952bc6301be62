(** C83: reading XML documents with a reader that remembers the tag of the root. *)
From Verif Require Import Base Xml_Proofs Xml_Props Xr_Model Xml_Spec.
Local Open Scope list_scope.

(** what a document holds under its root, as [Xml_Spec] reads it *)
Definition content (force : str -> bool) (name : str) (x : xml) : xval := one force name [value_of force x].

(** A reader told no tag gives the content of the root, whatever its name, and keeps that name. *)
Theorem first_read : forall force tag name x, XmlOk x -> tag = None \/ tag = Some [] ->
  xml_read force tag (events name x) = (Some name, Ok (content force name x)).
Proof.
  intros force tag name x h ht. unfold xml_read. rewrite (parse_document force x name h).
  assert (r : remembered tag = None) by (destruct ht as [->| ->]; reflexivity).
  unfold find_tag. rewrite r. cbn [rbind dget]. destruct (eq_dec name name) as [_|n]; [reflexivity|destruct (n eq_refl)].
Qed.
Print Assumptions first_read.

(** A reader with a tag reads the documents with that root and refuses the others; it keeps its tag. *)
Theorem later_read : forall force t name x, XmlOk x -> t <> [] ->
  xml_read force (Some t) (events name x) = (Some t, if eq_dec t name then Ok (content force name x) else Err KeyError).
Proof.
  intros force t name x h ht. unfold xml_read. rewrite (parse_document force x name h).
  destruct t as [|c t]; [destruct (ht eq_refl)|]. unfold find_tag, remembered. cbn [rbind dget].
  destruct (eq_dec (c :: t) name) as [->|n]; [reflexivity|]. reflexivity.
Qed.
Print Assumptions later_read.

Definition doc_events (d : str * xml) : list event := events (fst d) (snd d).
Definition doc_content (force : str -> bool) (d : str * xml) : xval := content force (fst d) (snd d).

Lemma read_all_tag : forall force t docs, t <> [] -> (forall d, In d docs -> XmlOk (snd d)) ->
  read_all force (Some t) (map doc_events docs) =
    (Some t, map (fun d => if eq_dec t (fst d) then Ok (doc_content force d) else Err KeyError) docs).
Proof.
  intros force t docs ht. induction docs as [|[n x] docs IH]; intros h; [reflexivity|]. cbn [map read_all].
  unfold doc_events at 1. cbn [fst snd]. rewrite (later_read force t n x (h (n, x) (or_introl eq_refl)) ht).
  rewrite IH by (intros d i; exact (h d (or_intror i))). reflexivity.
Qed.

(** Over any sequence of documents, the first one decides: exactly the documents with its root are read, each as if it
    were alone, and every other one is refused as a missing key. *)
Theorem first_root_decides : forall force d docs, fst d <> [] -> (forall e, In e (d :: docs) -> XmlOk (snd e)) ->
  read_all force None (map doc_events (d :: docs)) =
    (Some (fst d), map (fun e => if eq_dec (fst d) (fst e) then Ok (doc_content force e) else Err KeyError) (d :: docs)).
Proof.
  intros force [n x] docs hn h. cbn [map read_all]. unfold doc_events at 1. cbn [fst snd] in *.
  rewrite (first_read force None n x (h (n, x) (or_introl eq_refl)) (or_introl eq_refl)).
  rewrite (read_all_tag force n docs hn (fun e i => h e (or_intror i))).
  destruct (eq_dec n n) as [_|k]; [reflexivity|destruct (k eq_refl)].
Qed.
Print Assumptions first_root_decides.

(** When all the documents have the same root, the history does not matter. *)
Theorem same_roots_independent : forall force root docs, root <> [] ->
  (forall d, In d docs -> fst d = root /\ XmlOk (snd d)) ->
  snd (read_all force None (map doc_events docs)) = map (fun d => read_fresh force None (doc_events d)) docs.
Proof.
  intros force root [|d docs] hr h; [reflexivity|]. destruct (h d (or_introl eq_refl)) as [hd _].
  rewrite (first_root_decides force d docs) by (rewrite ?hd; try exact hr; intros e i; apply (h e i)).
  cbn [snd]. apply map_ext_in. intros e i. destruct (h e i) as [he ho].
  destruct (eq_dec (fst d) (fst e)) as [_|n]; [|exfalso; apply n; rewrite hd, he; reflexivity].
  unfold read_fresh, doc_events. rewrite (first_read force None (fst e) (snd e) ho (or_introl eq_refl)). reflexivity.
Qed.
Print Assumptions same_roots_independent.

(** A document that cannot be read (no root at all) leaves what is remembered. *)
Theorem empty_read_keeps : forall force tag evs, parse force evs = None ->
  xml_read force tag evs = (tag, Err (match tag with Some (_ :: _) => TypeError | _ => AttributeError end)).
Proof. intros force [[|c t]|] evs e; unfold xml_read; rewrite e; reflexivity. Qed.
Print Assumptions empty_read_keeps.

(** Whatever the events and the history, a tag that is set never changes. *)
Theorem tag_never_changes : forall force t docs, t <> [] -> fst (read_all force (Some t) docs) = Some t.
Proof.
  intros force t docs ht. induction docs as [|evs docs IH]; [reflexivity|]. cbn [read_all].
  assert (k : fst (xml_read force (Some t) evs) = Some t).
  { destruct t as [|c t]; [destruct (ht eq_refl)|]. reflexivity. }
  destruct (xml_read force (Some t) evs) as [tag r]. cbn [fst] in k. subst tag.
  destruct (read_all force (Some t) docs) as [tag rs]. exact IH.
Qed.
Print Assumptions tag_never_changes.

(** What was written is read back by a reader told nothing, and by one told the tag. *)
Theorem written_then_read : forall pretty newl indent repr force tag name e,
  Blank newl -> Blank indent -> force (chars "#text") = false -> force (chars "#tail") = false -> ElemOk pretty e ->
  name <> [] -> tag = None \/ tag = Some [] \/ tag = Some name ->
  exists evs, unparse pretty newl indent repr [(name, one force name [form force e])] = Ok evs /\
              xml_read force tag evs = (Some name, Ok (one force name [form force e])).
Proof.
  intros pretty newl indent repr force tag name e hn hi h1 h2 hok hne ht.
  destruct (xml_round_trip pretty newl indent repr force name e hn hi h1 h2 hok) as (evs & he & hp). exists evs. split; [exact he|].
  unfold xml_read. rewrite hp. unfold find_tag.
  assert (k : dget name [(name, one force name [form force e])] = Some (one force name [form force e])).
  { cbn [dget]. destruct (eq_dec name name) as [_|n]; [reflexivity|destruct (n eq_refl)]. }
  destruct ht as [->|[->| ->]]; cbn [remembered].
  - cbn [rbind]. rewrite k. reflexivity.
  - cbn [rbind]. rewrite k. reflexivity.
  - destruct name as [|c name]; [destruct (hne eq_refl)|]. cbn [rbind]. rewrite k. reflexivity.
Qed.
Print Assumptions written_then_read.

(** A root named as one of the schema tags comes back inside a list by default, the others do not. *)
Theorem default_content : forall name x, XmlOk x ->
  read_fresh default_force None (events name x) =
    Ok (if in_dec eq_dec name (map chars ["include"; "import"; "element"; "unique"; "simpleType"; "attributeGroup"; "group"; "complexType"; "restriction";
          "xs:include"; "xs:import"; "xs:element"; "xs:unique"; "xs:simpleType"; "xs:attributeGroup"; "xs:group"; "xs:complexType"; "xs:restriction"]%string)
        then XList [value_of default_force x] else value_of default_force x).
Proof.
  intros name x h. unfold read_fresh. rewrite (first_read default_force None name x h (or_introl eq_refl)). cbn [snd]. f_equal.
  unfold content, one.
  change (map chars ["include"; "import"; "element"; "unique"; "simpleType"; "attributeGroup"; "group"; "complexType"; "restriction";
          "xs:include"; "xs:import"; "xs:element"; "xs:unique"; "xs:simpleType"; "xs:attributeGroup"; "xs:group"; "xs:complexType"; "xs:restriction"]%string) with (map chars (schema_tags ++ map (fun t => ("xs:" ++ t)%string) schema_tags)).
  assert (k : default_force name = true <-> In name (map chars (schema_tags ++ map (fun t => ("xs:" ++ t)%string) schema_tags))).
  { unfold default_force. rewrite orb_true_iff, !existsb_exists, map_app, in_app_iff. rewrite map_map, !in_map_iff. split.
    - intros [(t & i & e)|(t & i & e)]; apply beq_true in e; [left|right]; exists t; split; trivial; rewrite e; reflexivity.
    - intros [(t & e & i)|(t & e & i)]; [left|right]; exists t; (split; [trivial|]); apply beq_true; rewrite <- e; reflexivity. }
  destruct (in_dec _ _ _) as [i|n]; [rewrite (proj2 k i); reflexivity|].
  destruct (default_force name); [destruct (n (proj1 k eq_refl))|reflexivity].
Qed.
Print Assumptions default_content.

(** * Refuted: reading a document does not depend on the documents read before *)
Theorem read_depends_on_history_refuted : forall force a b x y, a <> b -> a <> [] -> XmlOk x -> XmlOk y ->
  exists r, nth_error (snd (read_all force None [events a x; events b y])) 1 = Some r /\
            r = Err KeyError /\ read_fresh force None (events b y) = Ok (content force b y).
Proof.
  intros force a b x y n ha hx hy. exists (Err KeyError).
  pose proof (first_root_decides force (a, x) [(b, y)] ha) as h. cbn [map] in h. unfold doc_events in h. cbn [fst snd] in h.
  rewrite h.
  - cbn [snd nth_error]. destruct (eq_dec a b) as [e|_]; [destruct (n e)|]. repeat split.
    unfold read_fresh. rewrite (first_read force None b y hy (or_introl eq_refl)). reflexivity.
  - intros e [<-|[<-|[]]]; assumption.
Qed.
Print Assumptions read_depends_on_history_refuted.

(** * Examples *)
Local Open Scope string_scope.
Local Open Scope list_scope.
Definition ex_model : xml := Xml [(chars "id", chars "7")] [] [(chars "x", Xml [] (chars "1") [], []); (chars "x", Xml [] (chars "2") [], [])].
Definition ex_config : xml := Xml [] (chars "on") [].
Definition no_force : str -> bool := fun _ => false.
Example ex_ok : XmlOk ex_model /\ XmlOk ex_config.
Proof.
  assert (leaf : forall s, XmlOk (Xml [] s [])) by (intros s; constructor; [constructor|intros k []]).
  split; [|apply leaf]. constructor.
  - repeat constructor. intros [].
  - assert (tx : TagName (chars "x")) by (repeat split; try discriminate).
    intros k [<-|[<-|[]]]; (split; [exact tx|apply leaf]).
Qed.
Example ex_history : read_all no_force None [events (chars "model") ex_model; events (chars "config") ex_config; events (chars "model") ex_model] =
  (Some (chars "model"),
   [Ok (XDict [(chars "@id", XStr (chars "7")); (chars "x", XList [XStr (chars "1"); XStr (chars "2")])]);
    Err KeyError;
    Ok (XDict [(chars "@id", XStr (chars "7")); (chars "x", XList [XStr (chars "1"); XStr (chars "2")])])]).
Proof. vm_compute. reflexivity. Qed.
Example ex_schema : read_fresh default_force None (events (chars "xs:element") ex_config) = Ok (XList [XStr (chars "on")]).
Proof. vm_compute. reflexivity. Qed.
Example ex_nothing : xml_read no_force (Some (chars "model")) [] = (Some (chars "model"), Err TypeError).
Proof. reflexivity. Qed.
