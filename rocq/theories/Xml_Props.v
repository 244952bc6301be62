(** C50: converting dictionaries to XML and back. *)
From Verif Require Export Xml_Proofs.
From Verif Require Import Types_Proofs.
Local Open Scope char_scope.
Local Open Scope list_scope.

(** * Reading *)
(** Any document is read as one entry, its root element, with the value Xml_Spec gives to it. *)
Theorem parse_document : forall force x name, XmlOk x -> parse force (events name x) = Some [(name, one force name [value_of force x])].
Proof.
  intros force x name h. unfold parse. rewrite (run_element force x h). cbn [p_item]. unfold push_data. reflexivity.
Qed.
Print Assumptions parse_document.

(** In the value of an element, the children of one name are all there, in order: alone as such (unless a list is asked
    for), several as a list. *)
Theorem repeated_children_listed : forall force attrs first kids name, TagName name -> In name (map (fun k => fst (fst k)) kids) ->
  exists l, value_of force (Xml attrs first kids) = XDict l /\
    dget name l = Some (match map (fun k => value_of force (snd (fst k))) (filter (fun k => beq (fst (fst k)) name) kids) with
                        | [v] => if force name then XList [v] else v
                        | vs => XList vs
                        end).
Proof.
  intros force attrs first kids name hn hin. cbn [value_of].
  set (G := grouped force (map (fun k => (fst (fst k), value_of force (snd (fst k)))) kids)).
  set (T := _ ++ text_entry force (chars "#tail") _).
  exists (attribute_entries attrs ++ G ++ T). split.
  { destruct attrs; [|reflexivity]. destruct kids; [destruct hin|reflexivity]. }
  rewrite dget_app_l.
  2: { intros h. apply attribute_keys in h. destruct h as (s & e). destruct hn as (_ & _ & h3). exact (h3 s e). }
  assert (hg : dget name G = Some (one force name (map (fun k => value_of force (snd (fst k))) (filter (fun k => beq (fst (fst k)) name) kids)))).
  { assert (hd : forall (F : str -> xval) l, In name l -> dget name (map (fun k => (k, F k)) l) = Some (F name)).
    { clear. intros F l. induction l as [|a l IH]; [intros []|]. intros [<-|h]; cbn [map dget].
      - destruct (eq_dec a a); [reflexivity|congruence].
      - destruct (eq_dec name a) as [<-|]; [reflexivity|exact (IH h)]. }
    unfold G, grouped. rewrite hd.
    2: { apply dedup_In. rewrite map_map. exact hin. }
    f_equal. f_equal. clear. induction kids as [|k kids IH]; [reflexivity|]. cbn [map filter fst]. destruct (beq (fst (fst k)) name); cbn [map snd]; rewrite IH; reflexivity. }
  assert (ha : forall (a b : dict str xval) v, dget name a = Some v -> dget name (a ++ b) = Some v).
  { clear. induction a as [|[k x] a IH]; intros b v h; [discriminate|]. cbn [dget app] in *. destruct (eq_dec name k); [exact h|apply IH; exact h]. }
  rewrite (ha _ _ _ hg). unfold one. destruct (map _ (filter _ kids)) as [|v [|v' vs]]; reflexivity.
Qed.
Print Assumptions repeated_children_listed.

(** * Writing and reading back *)
(** Data of the supported form is written without an error, and reading what was written gives it back, pretty-printed
    (with blank separators) or not. *)
Theorem xml_round_trip : forall pretty newl indent repr force name e,
  Blank newl -> Blank indent -> force (chars "#text") = false -> force (chars "#tail") = false -> ElemOk pretty e ->
  exists evs, unparse pretty newl indent repr [(name, one force name [form force e])] = Ok evs /\
              parse force evs = Some [(name, one force name [form force e])].
Proof.
  intros pretty newl indent repr force name e hn hi h1 h2 hok.
  destruct (elem_effect pretty newl indent repr force hn hi h1 h2 e hok 0 name) as (evs & hev & hrun).
  exists evs. split.
  - unfold unparse, one. destruct (force name); cbn [emit_root]; [exact hev|]. destruct e; exact hev.
  - unfold parse. rewrite hrun. reflexivity.
Qed.
Print Assumptions xml_round_trip.

(** Pretty-printing changes nothing to what is read. *)
Theorem pretty_reads_the_same : forall newl indent repr force name e,
  Blank newl -> Blank indent -> force (chars "#text") = false -> force (chars "#tail") = false -> ElemOk true e -> ElemOk false e ->
  exists pe ce, unparse true newl indent repr [(name, one force name [form force e])] = Ok pe /\
                unparse false newl indent repr [(name, one force name [form force e])] = Ok ce /\ parse force pe = parse force ce.
Proof.
  intros newl indent repr force name e hn hi h1 h2 hp hc.
  destruct (xml_round_trip true newl indent repr force name e hn hi h1 h2 hp) as (pe & p1 & p2).
  destruct (xml_round_trip false newl indent repr force name e hn hi h1 h2 hc) as (ce & c1 & c2).
  exists pe, ce. repeat split; try assumption. rewrite p2, c2. reflexivity.
Qed.
Print Assumptions pretty_reads_the_same.

(** * Documents that are refused *)
(** A dictionary without entry, or with several, has no document; nor has one whose entry is a list of several, for that reason
    unless the first of them cannot be written. *)
Theorem one_root_only : forall pretty newl indent repr d, length d <> 1 -> unparse pretty newl indent repr d = Err ValueError.
Proof. intros pretty newl indent repr [|[k v] [|x d]] h; try reflexivity. exfalso. apply h. reflexivity. Qed.
Print Assumptions one_root_only.
Theorem root_list_refused : forall pretty newl indent repr name v w vs, exists err,
  unparse pretty newl indent repr [(name, XList (v :: w :: vs))] = Err err /\
  (forall evs, unparse pretty newl indent repr [(name, XList [v])] = Ok evs -> err = ValueError).
Proof.
  intros. cbn [unparse emit_root]. destruct (emit_one pretty newl indent repr 0 name v) as [evs|x]; eexists; (split; [reflexivity|]); [reflexivity|discriminate].
Qed.
Print Assumptions root_list_refused.

(** * Attributes and layout *)
(** An element carries exactly the entries whose key begins with @ as attributes, under the rest of the key, with their
    values as Python prints them. *)
Theorem attributes_written : forall pretty newl indent repr name l evs,
  dwf l -> (forall ns, ~ In (chars "@xmlns", XDict ns) l) -> unparse pretty newl indent repr [(name, XDict l)] = Ok evs ->
  exists attrs rest, evs = (if pretty then [Chars []] else []) ++ Start name attrs :: rest /\ dwf attrs /\
    forall n s, In (n, s) attrs <-> exists v, In ("@" :: n, v) l /\ Printed repr v s.
Proof.
  intros pretty newl indent repr name l evs hw hx h. cbn [unparse emit_root] in h. rewrite emit_dict in h. unfold element in h.
  destruct (text_events _) as [t|]; [|discriminate]. cbn [rbind] in h. destruct (emit_kids _ _ _ _ _ _) as [ks|]; [|discriminate]. cbn [rbind] in h.
  destruct (text_events _) as [tl|]; [|discriminate]. cbn [rbind repeat_text app] in h. injection h as <-.
  eexists _, _. split; [reflexivity|].
  assert (hp : forall v s, Printed repr v s <-> s = attr_text repr v).
  { intros v s. split; [intros []; reflexivity|intros ->]. destruct v as [|[]| | | |]; cbn [attr_text]; constructor. }
  assert (G : forall l acc, dwf l -> (forall ns, ~ In (chars "@xmlns", XDict ns) l) -> dwf acc -> (forall n, In n (dkeys acc) -> ~ In ("@" :: n) (dkeys l)) ->
             dwf (attrs_of repr l acc) /\ forall n s, In (n, s) (attrs_of repr l acc) <-> In (n, s) acc \/ exists v, In ("@" :: n, v) l /\ s = attr_text repr v).
  { clear. induction l as [|[k v] l IH]; intros acc hw hx ha hd.
    - split; [exact ha|]. intros n s. cbn [attrs_of]. split; [auto|]. intros [h|(v & [] & _)]. exact h.
    - inversion hw as [|x y hk hw']; subst. assert (hx' : forall ns, ~ In (chars "@xmlns", XDict ns) l) by (intros ns i; exact (hx ns (or_intror i))).
      cbn [attrs_of]. destruct (beq k cdata_key || beq k tail_key || negb (is_attr k)) eqn:e.
      + destruct (IH acc hw' hx' ha) as (g1 & g2). { intros n hn i. apply (hd n hn). right. exact i. } split; [exact g1|]. intros n s. rewrite g2. split.
        * intros [h|(w & i & ->)]; [left; exact h|right]. exists w. split; [right; exact i|reflexivity].
        * intros [h|(w & [i|i] & ->)]; [left; exact h| |right; exists w; split; [exact i|reflexivity]]. injection i as -> ->. exfalso. cbn in e. discriminate.
      + assert (exists n, k = "@" :: n) as (n0 & ->).
        { destruct k as [|c n]; [discriminate|]. exists n. apply orb_false_iff in e. destruct e as (_ & e). apply negb_false_iff in e. cbn in e. apply beq_true in e. congruence. }
        assert (hnew : ~ In n0 (dkeys acc)). { intros i. apply (hd n0 i). left. reflexivity. }
        assert (E : (match v with
                     | XDict ns => if beq ("@" :: n0) (chars "@xmlns") then attrs_of repr l (xmlns_attrs repr ns acc) else attrs_of repr l (dset n0 (attr_text repr v) acc)
                     | _ => attrs_of repr l (dset n0 (attr_text repr v) acc) end) = attrs_of repr l (acc ++ [(n0, attr_text repr v)])).
        { rewrite <- dset_new by exact hnew. destruct v as [| | | |ns|]; try reflexivity.
          destruct (beq ("@" :: n0) (chars "@xmlns")) eqn:b; [|reflexivity]. apply beq_true in b. exfalso. apply (hx ns). left. rewrite b. reflexivity. }
        cbn [tl]. rewrite E. destruct (IH (acc ++ [(n0, attr_text repr v)]) hw' hx') as (g1 & g2).
        { rewrite <- dset_new by exact hnew. apply dwf_dset. exact ha. }
        { intros n hn i. unfold dkeys in hn. rewrite map_app in hn. apply in_app_iff in hn. destruct hn as [hn|[hn|[]]].
          - apply (hd n hn). right. exact i.
          - cbn in hn. subst n. exact (hk i). }
        split; [exact g1|]. intros n s. rewrite g2. rewrite in_app_iff. split.
        * intros [[h|[h|[]]]|(w & i & ->)]; [left; exact h| |right; exists w; split; [right; exact i|reflexivity]]. injection h as <- <-. right. exists v. split; [left; reflexivity|reflexivity].
        * intros [h|(w & [i|i] & ->)]; [left; left; exact h| |right; exists w; split; [exact i|reflexivity]]. injection i as <- <-. left. right. left. reflexivity. }
  destruct (G l [] hw hx (dwf_nil _ _)) as (g1 & g2); [intros n []|]. split; [exact g1|]. intros n s. rewrite g2. split.
  - intros [[]|(v & i & e)]. exists v. split; [exact i|apply hp; exact e].
  - intros (v & i & e). right. exists v. split; [exact i|apply hp; exact e].
Qed.
Print Assumptions attributes_written.
(** A dictionary of namespaces gives one attribute per prefix, the empty prefix being the default namespace. *)
Theorem namespaces_written : forall pretty newl indent repr name ns, dwf ns ->
  exists attrs rest, unparse pretty newl indent repr [(name, XDict [(chars "@xmlns", XDict ns)])] = Ok ((if pretty then [Chars []] else []) ++ Start name attrs :: rest) /\
    forall n s, In (n, s) attrs <-> exists p v, In (p, v) ns /\ Printed repr v s /\ (p = [] /\ n = chars "xmlns" \/ p <> [] /\ n = chars "xmlns:" ++ p).
Proof.
  intros pretty newl indent repr name ns hw. eexists _, _. split.
  { cbn [unparse emit_root]. rewrite emit_dict. unfold element.
    change (dget cdata_key [(chars "@xmlns", XDict ns)]) with (@None xval). change (dget tail_key [(chars "@xmlns", XDict ns)]) with (@None xval).
    cbn [text_events rbind emit_kids]. change (is_child (chars "@xmlns")) with false. cbn [rbind repeat_text app]. reflexivity. }
  cbn [attrs_of]. change (beq (chars "@xmlns") cdata_key || beq (chars "@xmlns") tail_key || negb (is_attr (chars "@xmlns"))) with false. cbv iota.
  change (beq (chars "@xmlns") (chars "@xmlns")) with true. cbv iota.
  assert (hp : forall v s, Printed repr v s <-> s = attr_text repr v).
  { intros v s. split; [intros []; reflexivity|intros ->]. destruct v as [|[]| | | |]; cbn [attr_text]; constructor. }
  set (nm := fun p : str => chars "xmlns" ++ match p with [] => [] | _ => ":" :: p end).
  assert (ni : forall p q, nm p = nm q -> p = q). { intros p q e. apply app_inv_head in e. destruct p, q; congruence. }
  assert (G : forall l acc, dwf l -> (forall p, In p (dkeys l) -> ~ In (nm p) (dkeys acc)) ->
             forall n s, In (n, s) (xmlns_attrs repr l acc) <-> In (n, s) acc \/ exists p v, In (p, v) l /\ s = attr_text repr v /\ n = nm p).
  { clear - ni. induction l as [|[k v] l IH]; intros acc hw hd n s; cbn [xmlns_attrs].
    - split; [auto|]. intros [h|(p & v & [] & _)]. exact h.
    - inversion hw as [|x y hk hw']; subst. change (chars "xmlns" ++ match k with [] => [] | _ => ":" :: k end) with (nm k). rewrite dset_new by (apply hd; left; reflexivity).
      rewrite IH; [|exact hw'|].
      + rewrite in_app_iff. split.
        * intros [[h|[h|[]]]|(p & w & i & e)]; [left; exact h| |right; exists p, w; split; [right; exact i|exact e]].
          injection h as <- <-. right. exists k, v. repeat split. left. reflexivity.
        * intros [h|(p & w & [i|i] & e1 & e2)]; [left; left; exact h| |right; exists p, w; repeat split; assumption].
          injection i as <- <-. left. right. left. congruence.
      + intros p i h. unfold dkeys in h. rewrite map_app in h. apply in_app_iff in h. destruct h as [h|[h|[]]].
        * apply (hd p); [right; exact i|exact h].
        * cbn [fst] in h. apply ni in h. subst p. exact (hk i). }
  intros n s. rewrite (G ns [] hw (fun _ _ h => h)). split.
  - intros [[]|(p & v & i & e & en)]. exists p, v. split; [exact i|]. split; [apply hp; exact e|]. unfold nm in en. destruct p; [left|right].
    + split; [reflexivity|rewrite app_nil_r in en; exact en].
    + split; [discriminate|]. rewrite en. reflexivity.
  - intros (p & v & i & e & en). right. exists p, v. split; [exact i|]. split; [apply hp; exact e|]. unfold nm. destruct en as [(-> & ->)|(hp' & ->)].
    + rewrite app_nil_r. reflexivity.
    + destruct p; [congruence|reflexivity].
Qed.
Print Assumptions namespaces_written.
(** The text of an element must be a text: a number, true, or a list or dictionary that is not empty is refused. *)
Theorem text_must_be_text : forall pretty newl indent repr name l v, dget (chars "#text") l = Some v ->
  (exists s, v = XAtom s) \/ v = XBool true \/ (exists d, v = XDict d /\ d <> []) \/ (exists vs, v = XList vs /\ vs <> []) ->
  unparse pretty newl indent repr [(name, XDict l)] = Err TypeError.
Proof.
  intros pretty newl indent repr name l v e h. cbn [unparse emit_root]. rewrite emit_dict. unfold element. unfold cdata_key. rewrite e.
  destruct h as [(s & ->)|[->|[([|x d] & -> & n)|([|x d] & -> & n)]]]; try reflexivity; destruct (n eq_refl).
Qed.
Print Assumptions text_must_be_text.
(** Pretty-printed, each child that is not a dictionary nor a list is on one line of its own: its text follows its tag at once. *)
Theorem pretty_layout : forall newl indent repr name kids texts, kids <> [] ->
  Forall2 (fun kv t => TagName (fst kv) /\ Written repr (snd kv) t) kids texts -> dwf kids ->
  unparse true newl indent repr [(name, XDict kids)] =
    Ok (Chars [] :: Start name [] :: Chars newl ::
        flat_map (fun kt => [Chars indent; Start (fst (fst kt)) []] ++ snd kt ++ [End (fst (fst kt)); Chars newl]) (combine kids texts) ++
        [Chars []; End name]).
Proof.
  intros newl indent repr name kids texts hne h hw. cbn [unparse emit_root]. rewrite emit_dict. unfold element.
  assert (ht : forall kv, In kv kids -> TagName (fst kv)). { intros kv i. clear - h i. induction h as [|x y l l' (a & _) _ IH]; [destruct i|]. destruct i as [<-|i]; [exact a|exact (IH i)]. }
  assert (hno : forall k, ~ TagName k -> dget k kids = None).
  { intros k hk. apply dget_None. intros i. apply in_map_iff in i. destruct i as (kv & <- & i). exact (hk (ht kv i)). }
  rewrite (hno cdata_key) by (intros (a & _); apply a; reflexivity). rewrite (hno tail_key) by (intros (_ & a & _); apply a; reflexivity).
  cbn [text_events rbind]. rewrite attrs_of_skip.
  2: { intros kv i. destruct (tag_is_child _ (ht kv i)) as (_ & e). rewrite e. apply orb_true_r. }
  assert (ec : existsb (fun kv => is_child (fst kv)) kids = true).
  { destruct kids as [|kv kids]; [congruence|]. cbn [existsb]. destruct (tag_is_child _ (ht kv (or_introl eq_refl))) as (e & _). rewrite e. reflexivity. }
  rewrite ec. cbn [andb repeat_text app Nat.eqb negb].
  assert (ek : emit_kids true newl indent repr 0 kids = Ok (flat_map (fun kt => [Chars indent; Start (fst (fst kt)) []] ++ snd kt ++ [End (fst (fst kt)); Chars newl]) (combine kids texts))).
  { clear - h. induction h as [|[k v] t l l' (a & w) _ IH]; [reflexivity|]. destruct (tag_is_child _ a) as (e & _). cbn [fst] in e.
    cbn [emit_kids]. rewrite e. rewrite IH. cbn [combine flat_map fst snd].
    assert (E : (match v with XList xs => emit_each true newl indent repr 0 k xs | _ => emit_one true newl indent repr 1 k v end) = Ok ([Chars indent; Start k []] ++ t ++ [End k; Chars newl])).
    { cbn [snd] in w. inversion w; subst; cbn [emit_one]; unfold element; cbn [text_events rbind repeat_text andb Nat.eqb negb app]; rewrite app_nil_r; reflexivity. }
    rewrite E. reflexivity. }
  rewrite ek. cbn [rbind app]. reflexivity.
Qed.
Print Assumptions pretty_layout.

(** * Where the round trip fails *)
(** A tail without a text before it comes back as the text. *)
Theorem lone_tail_refuted : exists d evs d', unparse false [] [] (fun _ => []) d = Ok evs /\ parse (fun _ => false) evs = Some d' /\ d' <> d /\
  d = [(chars "a", XDict [(chars "b", XStr []); ((chars "#tail"), XStr (chars "t"))])] /\ d' = [(chars "a", XDict [(chars "b", XStr []); ((chars "#text"), XStr (chars "t"))])].
Proof. eexists _, _, _. repeat split. - vm_compute. reflexivity. - vm_compute. reflexivity. - discriminate. Qed.
(** Without a child, the text and the tail are one text. *)
Theorem text_and_tail_refuted : exists d evs d', unparse false [] [] (fun _ => []) d = Ok evs /\ parse (fun _ => false) evs = Some d' /\ d' <> d /\
  d = [(chars "a", XDict [(chars "@k", XStr (chars "v")); ((chars "#text"), XStr (chars "s")); ((chars "#tail"), XStr (chars "t"))])] /\
  d' = [(chars "a", XDict [(chars "@k", XStr (chars "v")); ((chars "#text"), XStr (chars "st"))])].
Proof. eexists _, _, _. repeat split. - vm_compute. reflexivity. - vm_compute. reflexivity. - discriminate. Qed.
(** Pretty-printing loses the tail after two children. *)
Theorem pretty_tail_refuted : exists d evs d', unparse true [ascii_of_nat 10] [] (fun _ => []) d = Ok evs /\ parse (fun _ => false) evs = Some d' /\ d' <> d /\
  d = [(chars "a", XDict [(chars "b", XList [XStr []; XStr []]); ((chars "#text"), XStr (chars "s")); ((chars "#tail"), XStr (chars "t"))])] /\
  d' = [(chars "a", XDict [(chars "b", XList [XStr []; XStr []]); ((chars "#text"), XStr (chars "s"))])].
Proof. eexists _, _, _. repeat split. - vm_compute. reflexivity. - vm_compute. reflexivity. - discriminate. Qed.
(** None comes back as an empty text, for every name and option. *)
Theorem none_becomes_empty_text : forall pretty newl indent repr force name, force name = false ->
  exists evs, unparse pretty newl indent repr [(name, XNone)] = Ok evs /\ parse force evs = Some [(name, XStr [])].
Proof.
  intros. destruct pretty.
  - eexists. split; [reflexivity|]. unfold parse. simpl. unfold push_data. simpl. rewrite H. reflexivity.
  - eexists. split; [reflexivity|]. unfold parse. simpl. unfold push_data. simpl. rewrite H. reflexivity.
Qed.
Print Assumptions none_becomes_empty_text.
(** A dictionary holding only a text comes back as the text. *)
Theorem text_only_dictionary_collapses : forall repr force name s, force name = false -> trimmed s ->
  exists evs, unparse false [] [] repr [(name, XDict [((chars "#text"), XStr s)])] = Ok evs /\ parse force evs = Some [(name, XStr s)].
Proof.
  intros repr force name s hf hs. eexists. split; [reflexivity|]. unfold parse.
  cbn [repeat_text andb app fold_left handle p_buf p_item p_data p_stack flush start_element attr_entries]. destruct s as [|c s].
  - simpl. unfold push_data. simpl. rewrite hf. reflexivity.
  - unfold end_element, flush. cbn [p_buf p_item p_data p_stack app map]. rewrite trimmed_strip by exact hs. unfold push_data. simpl. rewrite hf, app_nil_r. reflexivity.
Qed.
Print Assumptions text_only_dictionary_collapses.
(** A list of one child comes back as the child, and a child with an empty list does not come back. *)
Theorem short_lists_refuted : exists evs evs', 
  unparse false [] [] (fun _ => []) [(chars "a", XDict [(chars "b", XList [XStr (chars "s")])])] = Ok evs /\
  parse (fun _ => false) evs = Some [(chars "a", XDict [(chars "b", XStr (chars "s"))])] /\
  unparse false [] [] (fun _ => []) [(chars "a", XDict [(chars "b", XList []); (chars "c", XStr [])])] = Ok evs' /\
  parse (fun _ => false) evs' = Some [(chars "a", XDict [(chars "c", XStr [])])].
Proof. eexists _, _. repeat split; vm_compute; reflexivity. Qed.
(** The XML serializer itself always raises: it passes an option that writing does not know. *)
Theorem xml_serialize_refuted : forall newl indent repr tag value, xml_serialize newl indent repr tag value = Err TypeError.
Proof. reflexivity. Qed.
Print Assumptions xml_serialize_refuted.
(** It is that option alone: the seven options given are these, and writing knows all the others. *)
Theorem only_force_list_refused : forall k,
  (In k given_keywords <-> In k ["attr_prefix"; "cdata_key"; "force_list"; "pretty"; "indent"; "newl"; "short_empty_elements"]%string) /\
  (In k given_keywords -> ~ In k accepted_keywords <-> k = "force_list"%string).
Proof.
  intros k. split; [reflexivity|]. intros i.
  repeat (destruct i as [<-|i]; [split; [intros n; try reflexivity; exfalso; apply n; cbn; tauto|intros e n; try discriminate; cbn in n; repeat (destruct n as [n|n]; [discriminate|]); destruct n]|]).
  destruct i.
Qed.
Print Assumptions only_force_list_refused.

(** * Examples *)
Definition ex_doc : elem :=
  Elt [(chars "id", chars "7")] [(chars "b", [Leaf (chars "x y"); Elt [] [(chars "c", [Leaf []])] (chars "z") []; Leaf []]); (chars "d", [Leaf (chars "q")])] (chars "text") (chars "tail").
Example ex_doc_ok : ElemOk false ex_doc.
Proof.
  assert (tn : forall c, c <> "@" -> TagName [c]) by (intros c h; repeat split; try discriminate; intros s e; inversion e; congruence).
  assert (tr : forall s : string, strip whitespace (chars s) = chars s -> trimmed (chars s)) by (intros s h; rewrite <- h; apply strip_trimmed).
  constructor.
  - repeat constructor. intros [].
  - repeat constructor; simpl; intuition discriminate.
  - left. discriminate.
  - intros k es [e|[e|[]]]; inversion e; subst; (split; [apply tn; discriminate|]; split; [discriminate|]).
    + intros x [<-|[<-|[<-|[]]]].
      * apply LeafOk, (tr "x y"%string). reflexivity.
      * apply EltOk.
        -- constructor.
        -- repeat constructor. intros [].
        -- right. discriminate.
        -- intros k' es' [e'|[]]. inversion e'; subst. split; [apply tn; discriminate|]. split; [discriminate|]. intros x [<-|[]]. apply LeafOk, (tr ""%string). reflexivity.
        -- apply (tr "z"%string). reflexivity.
        -- apply (tr ""%string). reflexivity.
        -- intros h. exfalso. apply h. reflexivity.
      * apply LeafOk, (tr ""%string). reflexivity.
    + intros x [<-|[]]. apply LeafOk, (tr "q"%string). reflexivity.
  - apply (tr "text"%string). reflexivity.
  - apply (tr "tail"%string). reflexivity.
  - intros _. repeat split; discriminate.
Qed.
Example xml_round_trip_ex : form (fun _ => false) ex_doc =
    XDict [(chars "@id", XStr (chars "7"));
           (chars "b", XList [XStr (chars "x y"); XDict [(chars "c", XStr []); ((chars "#text"), XStr (chars "z"))]; XStr []]);
           (chars "d", XStr (chars "q")); ((chars "#text"), XStr (chars "text")); ((chars "#tail"), XStr (chars "tail"))] /\
  exists evs, unparse false [] [] (fun _ => []) [(chars "a", form (fun _ => false) ex_doc)] = Ok evs /\
              parse (fun _ => false) evs = Some [(chars "a", form (fun _ => false) ex_doc)].
Proof. split; [reflexivity|]. eexists. split; [reflexivity|]. vm_compute. reflexivity. Qed.
Example parse_document_ex :
  let x := Xml [(chars "id", chars "7")] (chars " t ") [(chars "b", Xml [] (chars "1") [], []); (chars "c", Xml [] [] [], chars "u"); (chars "b", Xml [] (chars "2") [], [])] in
  XmlOk x /\ parse (fun _ => false) (events (chars "a") x) =
    Some [(chars "a", XDict [(chars "@id", XStr (chars "7")); (chars "b", XList [XStr (chars "1"); XStr (chars "2")]); (chars "c", XStr []);
                             ((chars "#text"), XStr (chars "t")); ((chars "#tail"), XStr (chars "u"))])].
Proof.
  split; [|vm_compute; reflexivity].
  assert (tn : forall c, c <> "@" -> TagName [c]) by (intros c h; repeat split; try discriminate; intros s e; inversion e; congruence).
  constructor; [repeat constructor; intros []|]. intros k [<-|[<-|[<-|[]]]]; (split; [apply tn; discriminate|]; constructor; [constructor|intros ? []]).
Qed.

Example attributes_written_ex : unparse false [] [] (fun _ => chars "[]") [(chars "a", XDict [(chars "@k", XBool true); (chars "b", XNone); (chars "@xmlns", XStr (chars "u")); (chars "@l", XList [])])] =
  Ok [Start (chars "a") [(chars "k", chars "True"); (chars "xmlns", chars "u"); (chars "l", chars "[]")]; Start (chars "b") []; End (chars "b"); End (chars "a")].
Proof. reflexivity. Qed.
Example namespaces_written_ex : unparse false [] [] (fun _ => []) [(chars "a", XDict [(chars "@xmlns", XDict [([], XStr (chars "u")); (chars "p", XStr (chars "w"))])])] =
  Ok [Start (chars "a") [(chars "xmlns", chars "u"); (chars "xmlns:p", chars "w")]; End (chars "a")].
Proof. reflexivity. Qed.
Example pretty_layout_ex : Forall2 (fun kv t => TagName (fst kv) /\ Written (fun _ => []) (snd kv) t)
   [(chars "b", XBool true); (chars "c", XNone)] [[Chars (chars "true")]; []].
Proof. repeat constructor; try discriminate. Qed.
