(** Names in namespaces, in documents read and written. *)
From Verif Require Import Base Coll_Model Types_Proofs Xml_Model Xml_Proofs Xn_Proofs Xml_Spec Xn_Model Xn_Spec.
Notation one := Xml_Spec.one (only parsing).
Local Open Scope char_scope.
Local Open Scope list_scope.

(** * Reading *)
Lemma nok_local sep short y : NOk sep short y -> Local sep y.
Proof.
  induction y as [ds attrs first kids IH] using nxml_rect'. intros h. inversion h as [ds' a f k nd ha hk]; subst. constructor.
  - intros a i. apply (ha a i).
  - intros k i. destruct (hk k i) as (h1 & _ & h3). split; [exact h1|apply IH; assumption].
Qed.
(** A document whose names stand for something is read as its dictionary form: elements and attributes under the name written for their
    namespace, declarations after the attributes of the element that makes them or of the next that has attributes. *)
Theorem parse_namespaces : forall sep short force n x m y, ~ In sep (chars "xmlns") -> Means at_start n x m y -> NOk sep short y -> ~ In sep (snd m) ->
  parse_ns sep short force (events n x) = Some (Some [(written sep short m, one force (written sep short m) [shown sep short force (fst (place [] y))])]).
Proof.
  intros sep short force n x m y hs hm ok hn. unfold parse_ns. rewrite <- (app_nil_r (events n x)).
  rewrite (scan_element sep x at_start n m y hm (nok_local sep short y ok) start_scope [] []).
  - cbn [scan]. rewrite app_nil_r. rewrite (run_ns sep short force hs y ok) by exact hn. cbn [n_st p_item]. unfold push_data. cbn [dget dset one]. reflexivity.
  - intros p. unfold start_scope, at_start. cbn [dget]. destruct (eq_dec p (chars "xml")); reflexivity.
Qed.
Print Assumptions parse_namespaces.
(** Only such documents are accepted. *)
Lemma cut_spec sep s a b : cut sep s = Some (a, b) -> s = a ++ sep :: b /\ ~ In sep a.
Proof.
  revert a. induction s as [|c s IH]; intros a; [discriminate|]. cbn [cut]. destruct (beq_spec _ c sep) as [->|ne].
  - intros e. injection e as <- <-. split; [reflexivity|intros []].
  - destruct (cut sep s) as [[a' b']|] eqn:e; [|discriminate]. intros h. injection h as <- <-. destruct (IH a' eq_refl) as (-> & n). split; [reflexivity|].
    intros [->|i]; [congruence|contradiction].
Qed.
Lemma cut_no sep s : cut sep s = None -> ~ In sep s.
Proof.
  induction s as [|c s IH]; [intros _ []|]. cbn [cut]. destruct (beq_spec _ c sep) as [->|ne]; [discriminate|]. destruct (cut sep s) as [[a b]|]; [discriminate|].
  intros _ [->|i]; [congruence|exact (IH eq_refl i)].
Qed.
Lemma qname_spec s p l : qname s = Some (p, l) -> Ident l /\ (p = [] /\ s = l \/ Ident p /\ s = p ++ ":" :: l).
Proof.
  unfold qname. destruct (cut ":" s) as [[a b]|] eqn:e.
  - apply cut_spec in e. destruct e as (-> & n). destruct a as [|c a]; [discriminate|]. destruct b as [|d b]; [discriminate|]. destruct (mem ":" (d :: b)) eqn:em; [discriminate|].
    intros h. injection h as <- <-. apply (mem_not_In _ ":" (d :: b)) in em. split; [split; [discriminate|exact em]|]. right. split; [split; [discriminate|exact n]|reflexivity].
  - apply cut_no in e. destruct s as [|c s]; [discriminate|]. intros h. injection h as <- <-. split; [split; [discriminate|exact e]|]. left. split; reflexivity.
Qed.
Lemma decl_key_declares q : qname (decl_key q) <> None -> declares (decl_key q) <> None.
Proof.
  intros h. destruct q as [|c q]; [vm_compute; discriminate|]. unfold declares. destruct (qname (decl_key (c :: q))) as [[p l]|] eqn:e; [|congruence].
  destruct (qname_spec _ p l e) as (hl & [(-> & el)|(hp & el)]).
  - exfalso. apply (proj2 hl). rewrite <- el. cbn. tauto.
  - assert (e2 := f_equal (cut ":") el). change (decl_key (c :: q)) with (chars "xmlns" ++ ":" :: c :: q) in e2. rewrite !cut_app in e2 by (apply hp || apply ident_xmlns).
    assert (e3 : Some (chars "xmlns") = Some p) by exact (f_equal (option_map fst) e2). injection e3 as e3. assert (e4 : p = chars "xmlns") by (symmetry; exact e3). subst p.
    change (match chars "xmlns" with [] => if beq l (chars "xmlns") then Some [] else None | _ => if beq (chars "xmlns") (chars "xmlns") then Some l else None end <> None).
    rewrite beq_refl. discriminate.
Qed.
Definition ScopeOk (d : scope) : Prop := forall p u, dget p d = Some u -> u = [] -> p = [].
Lemma element_means sep d n r : ScopeOk d -> element_name sep d n = Some r -> exists m, ElementName (fun p => dget p d) n m.
Proof.
  intros ok. unfold element_name. destruct (qname n) as [[p l]|] eqn:e; [|discriminate]. destruct (qname_spec n p l e) as (hl & [(-> & ->)|(hp & ->)]).
  - destruct (dget [] d) as [[|c u]|] eqn:ed; intros _.
    + eexists. apply en_none; [exact hl|]. right. exact ed.
    + eexists. apply (en_default _ l (c :: u)); [exact hl|exact ed|discriminate].
    + eexists. apply en_none; [exact hl|]. left. exact ed.
  - destruct (dget p d) as [[|c u]|] eqn:ed; intros h.
    + exfalso. apply (proj1 hp). exact (ok p [] ed eq_refl).
    + eexists. apply (en_prefix _ p l (c :: u)); [exact hp|exact hl|exact ed|discriminate].
    + destruct p; [destruct hp; congruence|discriminate].
Qed.
Lemma attribute_means sep d n r : ScopeOk d -> attribute_name sep d n = Some r -> declares n = None -> exists m, AttributeName (fun p => dget p d) n m /\ full sep m = r.
Proof.
  intros ok. unfold attribute_name, declares. destruct (qname n) as [[p l]|] eqn:e; [|discriminate]. destruct (qname_spec n p l e) as (hl & [(-> & ->)|(hp & ->)]).
  - intros h. injection h as <-. destruct (beq_spec _ l (chars "xmlns")) as [->|ne]; [discriminate|]. intros _. exists ([], l). split; [apply an_none; assumption|reflexivity].
  - destruct p as [|c p]; [destruct hp; congruence|]. destruct (dget (c :: p) d) as [u|] eqn:ed; [|discriminate]. intros h. injection h as <-.
    destruct (beq_spec _ (c :: p) (chars "xmlns")) as [->|ne]; [discriminate|]. intros _. assert (un : u <> []) by (intros ->; assert (x := ok (c :: p) [] ed eq_refl); discriminate).
    exists (u, l). split; [apply an_prefix; assumption|]. unfold full. cbn [fst snd]. destruct u; [congruence|reflexivity].
Qed.
Lemma declares_means n p : declares n = Some p -> n = decl_key p /\ ~ In ":" p.
Proof.
  unfold declares. destruct (qname n) as [[q l]|] eqn:e; [|discriminate]. destruct (qname_spec n q l e) as (hl & [(-> & ->)|(hp & ->)]).
  - destruct (beq_spec _ l (chars "xmlns")) as [->|ne]; [|discriminate]. intros h. injection h as <-. split; [reflexivity|intros []].
  - destruct q as [|c q]; [destruct hp; congruence|]. destruct (beq_spec _ (c :: q) (chars "xmlns")) as [eq|ne]; [|discriminate]. intros h. injection h as <-. rewrite eq.
    split; [destruct l; [destruct hl; congruence|reflexivity]|apply hl].
Qed.
(** the scope after some declarations keeps to the rule, and is the one the attributes tell *)
Lemma declare_scope attrs : forall d d' evs, ScopeOk d -> NoDup (map fst attrs) -> (forall k v, In (k, v) attrs -> qname k <> None) -> declare attrs d = Some (d', evs) ->
  ScopeOk d' /\ forall p, dget p d' = inside attrs (fun q => dget q d) p.
Proof.
  induction attrs as [|[k u] attrs IH]; intros d d' evs ok nd hq h; cbn [declare] in h.
  - injection h as <- <-. split; [exact ok|]. reflexivity.
  - inversion nd as [|x y nin nd']; subst. assert (hq' := fun k v i => hq k v (or_intror i)). destruct (declares k) as [p|] eqn:ek.
    + apply declares_means in ek. destruct ek as (-> & hc). destruct (may_declare p u) eqn:em; [|discriminate]. destruct (declare attrs (dset p u d)) as [[d2 ev2]|] eqn:e2; [|discriminate].
      injection h as <- <-. destruct (IH (dset p u d) d2 ev2) as (ok2 & h2); [|exact nd'|exact hq'|exact e2|].
      { intros q v. rewrite dget_dset. destruct (eq_dec q p) as [->|ne].
        - intros eq ->. injection eq as ->. unfold may_declare in em. rewrite !andb_true_iff in em. destruct em as (_ & em). apply beq_true in em. exact em.
        - apply ok. }
      split; [exact ok2|]. intros q. rewrite h2. unfold inside. cbn [dget]. destruct (eq_dec (decl_key q) (decl_key p)) as [eq|ne].
      * apply decl_key_inj in eq. subst q. destruct (dget (decl_key p) attrs) eqn:eg; [apply dget_Some_key in eg; contradiction|]. apply dget_dset_same.
      * destruct (dget (decl_key q) attrs); [reflexivity|]. apply dget_dset_other. intros ->. congruence.
    + destruct (IH d d' evs ok nd' hq' h) as (ok2 & h2). split; [exact ok2|]. intros q. rewrite h2. unfold inside. cbn [dget]. destruct (eq_dec (decl_key q) k) as [eq|ne]; [|reflexivity].
      exfalso. subst k. exact (decl_key_declares q (hq _ u (or_introl eq_refl)) ek).
Qed.
Lemma attributes_qname sep attrs : forall d l, attributes sep attrs d = Some l -> forall k v, In (k, v) attrs -> qname k <> None.
Proof.
  induction attrs as [|[a b] attrs IH]; intros d l h k v i; [destruct i|]. cbn [attributes] in h. destruct (declares a) as [p|] eqn:ed.
  - destruct i as [e|i]; [|eapply IH; eassumption]. injection e as -> ->. intros q. unfold declares in ed. rewrite q in ed. discriminate.
  - destruct (attribute_name sep d a) as [a'|] eqn:ea; [|discriminate]. destruct (attributes sep attrs d) as [l'|] eqn:el; [|discriminate].
    destruct i as [e|i]; [|eapply IH; eassumption]. injection e as -> ->. intros q. unfold attribute_name in ea. rewrite q in ea. discriminate.
Qed.
Lemma inside_sorted sep (sc : known) (d : scope) attrs : (forall p, dget p d = sc p) -> ScopeOk d -> forall d0 d1 evs l, declare attrs d0 = Some (d1, evs) -> attributes sep attrs d = Some l ->
  exists ds ats, Sorted_out sc attrs ds ats /\ map (fun a => (full sep (fst a), snd a)) ats = l.
Proof.
  intros hd ok. induction attrs as [|[k v] attrs IH]; intros d0 d1 evs l h1 h2.
  - injection h2 as <-. exists [], []. split; [constructor|reflexivity].
  - cbn [declare attributes] in h1, h2. destruct (declares k) as [p|] eqn:ek.
    + apply declares_means in ek. destruct ek as (-> & hc). destruct (may_declare p v) eqn:em; [|discriminate]. destruct (declare attrs (dset p v d0)) as [[d2 ev2]|] eqn:e2; [|discriminate].
      destruct (IH _ _ _ _ e2 h2) as (ds & ats & so & e). exists ((p, v) :: ds), ats. split; [|exact e]. constructor; [|exact so].
      unfold may_declare in em. rewrite !andb_true_iff, !negb_true_iff in em. destruct em as ((m1 & m2) & m3). apply beq_false in m1. apply beq_false in m2.
      split; [exact hc|]. split; [exact m1|]. split; [exact m2|]. cbn [fst snd]. intros ->. apply beq_true in m3. exact m3.
    + destruct (attribute_name sep d k) as [k'|] eqn:ea; [|discriminate]. destruct (attributes sep attrs d) as [l'|] eqn:el; [|discriminate]. injection h2 as <-.
      destruct (IH _ _ _ _ h1 eq_refl) as (ds & ats & so & e). destruct (attribute_means sep d k k' ok ea ek) as (m & hm & em).
      exists ds, ((m, v) :: ats). split; [|cbn [map fst snd]; rewrite em, e; reflexivity]. constructor; [|exact so].
      destruct hm as [x hx hn|p x u hp hn hx hs hu]; [apply an_none; assumption|apply an_prefix; try assumption]. rewrite <- hd. exact hs.
Qed.
Lemma distinct_sound l : distinct l = true -> NoDup l.
Proof.
  induction l as [|x l IH]; intros h; [constructor|]. cbn [distinct] in h. apply andb_true_iff in h. destruct h as (h1 & h2). apply negb_true_iff in h1.
  constructor; [apply (mem_not_In _ x l); exact h1|apply IH; exact h2].
Qed.
Ltac scan_of h r e := match type of h with context [match scan ?s ?d ?st ?l with _ => _ end] => destruct (scan s d st l) as [r|] eqn:e; [|discriminate h] end.
Lemma scan_means sep x : Distinct x -> forall (sc : known) n d stack rest r, (forall p, dget p d = sc p) -> ScopeOk d -> scan sep d stack (events n x ++ rest) = Some r ->
  (exists m y, Means sc n x m y) /\ exists r', scan sep d stack rest = Some r'.
Proof.
  induction x as [attrs first kids IH] using xml_rect'. intros di sc n d stack rest r hd ok h. inversion di as [a f k nd dk]; subst.
  cbn [events app scan] in h. destruct (declare attrs d) as [[d' ds]|] eqn:ed; [|discriminate].
  destruct (element_name sep d' n) as [n'|] eqn:en; [|discriminate]. destruct (attributes sep attrs d') as [ats|] eqn:ea; [|discriminate].
  destruct (distinct (map fst ats)) eqn:edi; [|discriminate].
  destruct (declare_scope attrs d d' ds ok nd (attributes_qname sep attrs d' ats ea) ed) as (ok' & hin).
  assert (hin' : forall p, dget p d' = inside attrs sc p) by (intros p; rewrite hin; unfold inside; destruct (dget (decl_key p) attrs); [reflexivity|apply hd]).
  destruct (element_means sep d' n n' ok' en) as (m & hm). destruct (inside_sorted sep (inside attrs sc) d' attrs hin' ok' _ _ _ _ ed ea) as (dl & ats' & so & es).
  rewrite <- app_assoc in h. scan_of h r2 er2.
  assert (K : forall kids, (forall k, In k kids -> Distinct (snd (fst k)) -> forall (sc : known) n d stack rest r, (forall p, dget p d = sc p) -> ScopeOk d -> scan sep d stack (events n (snd (fst k)) ++ rest) = Some r ->
      (exists m y, Means sc n (snd (fst k)) m y) /\ exists r', scan sep d stack rest = Some r') -> (forall k, In k kids -> Distinct (snd (fst k))) ->
    forall stack rest r, scan sep d' stack (flat_map (fun k => events (fst (fst k)) (snd (fst k)) ++ [Chars (snd k)]) kids ++ rest) = Some r ->
    (exists ks, MeanKids (inside attrs sc) kids ks) /\ exists r', scan sep d' stack rest = Some r').
  { clear -hin' ok'. induction kids as [|[[k x] t] kids IHk]; intros hI hD stack rest r h.
    - split; [exists []; constructor|exists r; exact h].
    - cbn [flat_map fst snd] in h. rewrite <- !app_assoc in h. destruct (hI (k, x, t) (or_introl eq_refl) (hD (k, x, t) (or_introl eq_refl)) (inside attrs sc) k d' stack _ r hin' ok' h) as ((m & y & hm) & r1 & h1).
      cbn [app scan] in h1. scan_of h1 r2 e2.
      destruct (IHk (fun k' i => hI k' (or_intror i)) (fun k' i => hD k' (or_intror i)) stack rest r2 e2) as ((ks & hk) & r3 & h3).
      split; [|exists r3; exact h3]. exists ((m, y, t) :: ks). constructor; assumption. }
  destruct (K kids IH dk ((d, n') :: stack) _ r2 er2) as ((ks & hk) & r3 & h3). cbn [app scan] in h3. destruct (scan sep d stack rest) as [r4|] eqn:e4; [|discriminate].
  split; [|exists r4; reflexivity]. exists m, (NX (reported dl) ats' first ks). constructor; try assumption.
  - apply distinct_sound in edi. rewrite <- es, map_map in edi. cbn [fst] in edi. rewrite <- (map_map fst (full sep)) in edi. eapply NoDup_map_inv. exact edi.
  - destruct hm as [l hl hs|l u hl hs hu|p l u hp hl hs hu]; [apply en_none; [exact hl|]; rewrite <- hin'; exact hs|apply en_default; try assumption; rewrite <- hin'; exact hs|apply en_prefix; try assumption; rewrite <- hin'; exact hs].
Qed.
Lemma start_same : forall p, dget p start_scope = at_start p.
Proof. intros p. unfold start_scope, at_start. cbn [dget]. destruct (eq_dec p (chars "xml")); reflexivity. Qed.
Lemma start_ok : ScopeOk start_scope.
Proof. intros p u h ->. unfold start_scope in h. cbn [dget] in h. destruct (eq_dec p (chars "xml")); discriminate. Qed.
Lemma element_local sc n m : ElementName sc n m -> ~ In ":" (snd m).
Proof. intros [l h _|l u h _ _|p l u _ h _ _]; apply h. Qed.
Lemma attribute_local sc n m : AttributeName sc n m -> ~ In ":" (snd m).
Proof. intros [l h _|p l u _ _ h _ _]; apply h. Qed.
Lemma means_local x : forall sc n m y, Means sc n x m y -> Local ":" y.
Proof.
  induction x as [attrs first kids IH] using xml_rect'. intros sc n m y h. inversion h as [sc' n' attrs' first' kids0 m' ds ats kids' nd so nda en mk]; subst. constructor.
  - revert so. generalize (inside attrs sc). intros s so. clear - so. induction so as [|p u a1 d1 t1 hd so IHs|k n v a1 d1 t1 ha so IHs]; [intros a []|exact IHs|]. intros a [<-|i]; [apply (attribute_local _ _ _ ha)|apply IHs; exact i].
  - clear - mk IH. revert mk IH. generalize (inside attrs sc). intros s mk. induction mk as [s|s n x t kids m y kids' hm mk IHm]; intros IH k i; [destruct i|]. destruct i as [<-|i].
    + cbn [fst snd]. split; [inversion hm; subst; eapply element_local; eassumption|]. exact (IH (n, x, t) (or_introl eq_refl) _ _ _ _ hm).
    + apply IHm; [|exact i]. intros k' j. apply IH. right. exact j.
Qed.
(** A document is accepted exactly when all its names stand for something, which a separator that names do not use cannot change. *)
Theorem accepted_iff_means : forall short force n x, Distinct x ->
  (parse_ns ":" short force (events n x) <> None <-> exists m y, Means at_start n x m y).
Proof.
  intros short force n x di. split.
  - unfold parse_ns. destruct (scan ":" start_scope [] (events n x)) as [r|] eqn:e; [|congruence]. intros _. rewrite <- (app_nil_r (events n x)) in e.
    exact (proj1 (scan_means ":" x di at_start n start_scope [] [] r start_same start_ok e)).
  - intros (m & y & hm). unfold parse_ns. rewrite <- (app_nil_r (events n x)). rewrite (scan_element ":" x at_start n m y hm (means_local x _ _ _ _ hm) start_scope [] [] start_same). discriminate.
Qed.
Print Assumptions accepted_iff_means.

(** * Where declarations are found *)
Lemma sorted_keys sc attrs ds ats : Sorted_out sc attrs ds ats -> NoDup (map fst attrs) -> dwf (reported ds) /\ forall p, In p (dkeys (reported ds)) -> In (decl_key p) (map fst attrs).
Proof.
  induction 1 as [|p u attrs ds ats hd so IH|k n v attrs ds ats ha so IH]; intros nd.
  - split; [apply dwf_nil|intros ? []].
  - inversion nd as [|x y nin nd']; subst. destruct (IH nd') as (w & h). split.
    + cbn [reported map]. constructor; [|exact w]. cbn [fst]. intros i. apply nin. apply h. exact i.
    + intros q [<-|i]; [left; reflexivity|right; apply h; exact i].
  - inversion nd as [|x y nin nd']; subst. destruct (IH nd') as (w & h). split; [exact w|]. intros q i. right. apply h. exact i.
Qed.
Inductive DeclWf : nxml -> Prop :=
| DeclWf_intro ds attrs first kids : dwf ds -> (forall k, In k kids -> DeclWf (snd (fst k))) -> DeclWf (NX ds attrs first kids).
Lemma means_wf x : forall sc n m y, Means sc n x m y -> DeclWf y.
Proof.
  induction x as [attrs first kids IH] using xml_rect'. intros sc n m y h. inversion h as [sc' n' attrs' first' kids0 m' ds ats kids' nd so nda en mk]; subst. constructor.
  - apply (sorted_keys _ _ _ _ so nd).
  - clear - mk IH. revert mk IH. generalize (inside attrs sc). intros s mk. induction mk as [s|s n x t kids m y kids' hm mk IHm]; intros IH k i; [destruct i|]. destruct i as [<-|i].
    + exact (IH (n, x, t) (or_introl eq_refl) _ _ _ _ hm).
    + apply IHm; [|exact i]. intros k' j. apply IH. right. exact j.
Qed.
Lemma place_kept y : DeclWf y -> Kept y -> place [] y = (y, []).
Proof.
  induction y as [ds attrs first kids IH] using nxml_rect'. intros hw hk. inversion hw as [d a f k wd wk]; subst. inversion hk as [d a f k kd kk]; subst. rewrite place_eq.
  assert (K : place_kids kids [] = (kids, [])).
  { clear kd wd hw hk. induction kids as [|[[n k] t] r IHk]; [reflexivity|]. cbn [place_kids].
    assert (e : place [] k = (k, [])) by (apply (IH (n, k, t) (or_introl eq_refl)); [apply (wk (n, k, t))|apply (kk (n, k, t))]; left; reflexivity). rewrite e.
    rewrite IHk; [reflexivity|intros k' i; apply IH; right; exact i|intros k' i; apply wk; right; exact i|intros k' i; apply kk; right; exact i]. }
  rewrite update_self by exact wd. destruct attrs as [|a attrs]; [|rewrite K; reflexivity]. destruct ds as [|d ds]; [rewrite K; reflexivity|]. exfalso. apply kd; [discriminate|reflexivity].
Qed.
(** Declarations stand beside the attributes of the element that makes them, when it has attributes. *)
Theorem declared_where_made : forall sep short force n x m y, ~ In sep (chars "xmlns") -> Means at_start n x m y -> NOk sep short y -> ~ In sep (snd m) -> Kept y ->
  parse_ns sep short force (events n x) = Some (Some [(written sep short m, one force (written sep short m) [shown sep short force y])]).
Proof.
  intros sep short force n x m y hs hm ok hn hk. rewrite (parse_namespaces sep short force n x m y hs hm ok hn). rewrite (place_kept y (means_wf x _ _ _ _ hm) hk). reflexivity.
Qed.
Print Assumptions declared_where_made.
Lemma place_bare y : Bare y -> forall pend, fst (place pend y) = quiet y.
Proof.
  induction y as [ds attrs first kids IH] using nxml_rect'. intros hb pend. inversion hb as [d f k hk]; subst. rewrite place_eq. cbn [quiet].
  assert (K : forall pend, fst (place_kids kids pend) = map (fun k => (fst (fst k), quiet (snd (fst k)), snd k)) kids).
  { clear hb pend. induction kids as [|[[n k] t] r IHk]; intros pend; [reflexivity|]. cbn [place_kids map fst snd]. assert (e := IH (n, k, t) (or_introl eq_refl) (hk (n, k, t) (or_introl eq_refl)) pend).
    cbn [fst snd] in e. destruct (place pend k) as [k' p1]. cbn [fst] in e. subst k'.
    assert (e := IHk (fun k' i => IH k' (or_intror i)) (fun k' i => hk k' (or_intror i)) p1). destruct (place_kids r p1) as [r' p2]. cbn [fst] in e |- *. rewrite e. reflexivity. }
  specialize (K (update pend ds)). destruct (place_kids kids (update pend ds)) as [ks p]. cbn [fst] in *. rewrite K. reflexivity.
Qed.
(** FINDING: in a document without attributes, declarations are lost; the dictionary is that of the document without them. *)
Theorem declarations_lost_refuted : forall sep short force n x m y, ~ In sep (chars "xmlns") -> Means at_start n x m y -> NOk sep short y -> ~ In sep (snd m) -> Bare y ->
  parse_ns sep short force (events n x) = Some (Some [(written sep short m, one force (written sep short m) [shown sep short force (quiet y)])]).
Proof.
  intros sep short force n x m y hs hm ok hn hb. rewrite (parse_namespaces sep short force n x m y hs hm ok hn). rewrite place_bare by exact hb. reflexivity.
Qed.
Print Assumptions declarations_lost_refuted.
(** FINDING: those of an element without attributes are found on its first child, when that one has attributes. *)
Theorem moved_declaration_refuted : forall sep short force n x m ds first c ds' a attrs f ks t, ~ In sep (chars "xmlns") ->
  Means at_start n x m (NX ds [] first [(c, NX ds' (a :: attrs) f ks, t)]) -> NOk sep short (NX ds [] first [(c, NX ds' (a :: attrs) f ks, t)]) -> ~ In sep (snd m) ->
  ds <> [] -> force (written sep short m) = false -> force (written sep short c) = false ->
  exists root child, parse_ns sep short force (events n x) = Some (Some [(written sep short m, XDict root)]) /\ dget (chars "@xmlns") root = None /\
    dget (written sep short c) root = Some (XDict child) /\ dget (chars "@xmlns") child = Some (XDict (update ds ds')).
Proof.
  intros sep short force n x m ds first c ds' a attrs f ks t hs hm ok hn hd f1 f2.
  rewrite (parse_namespaces sep short force n x m _ hs hm ok hn). inversion ok as [d at0 fi k nd ha hk]; subst. destruct (hk _ (or_introl eq_refl)) as (_ & ht & ok2). cbn [fst snd] in ht, ok2.
  inversion ok2 as [d at0 fi k nd2 ha2 hk2]; subst.
  assert (ne : update ds ds' <> []).
  { assert (z : forall (e d : dict str xval), d <> [] -> update d e <> []).
    { induction e as [|[p u] e IH]; intros d h; [exact h|]. unfold update in *. cbn [fold_left fst snd]. apply IH. destruct d as [|[q v] d]; [congruence|]. cbn [dset]. destruct (eq_dec p q); discriminate. }
    apply z. exact hd. }
  assert (wd : dwf ds) by (assert (z := means_wf x _ _ _ _ hm); inversion z; assumption).
  rewrite place_eq. cbn [place_kids]. rewrite place_eq. rewrite (update_self ds wd). destruct (place_kids ks []) as [ks' p]. cbn [fst]. cbn [shown map fst snd].
  destruct (update ds ds') as [|u us] eqn:eu; [congruence|]. set (U := u :: us) in *.
  cbn [Xml_Spec.one]. rewrite f1. eexists. eexists. split; [reflexivity|].
  assert (gr : forall v, grouped force [(written sep short c, v)] = [(written sep short c, if force (written sep short c) then XList [v] else v)]).
  { intros v. unfold grouped. cbn [map fst dedup dedup_from mem filter]. rewrite beq_refl. reflexivity. }
  split.
  { cbn [app]. rewrite gr. cbn [app dget]. destruct (eq_dec (chars "@xmlns") (written sep short c)) as [e|_]; [exfalso; apply (proj2 (proj2 ht) (chars "xmlns")); symmetry; exact e|].
    apply dget_None. unfold dkeys. rewrite map_app. intros i. apply in_app_iff in i.
    destruct i as [i|i]; apply in_map_iff in i; destruct i as ([k v] & e & i); cbn [fst] in e; subst k; unfold text_entry in i.
    - destruct (nth_error _ 0) as [[|ch s]|] in i; [destruct i| |destruct i]. destruct i as [e|[]]. discriminate.
    - destruct (nth_error _ 1) as [[|ch s]|] in i; [destruct i| |destruct i]. destruct i as [e|[]]. discriminate. }
  split.
  { cbn [app]. rewrite gr, f2. cbn [app dget]. destruct (eq_dec (written sep short c) (written sep short c)); [reflexivity|congruence]. }
  cbn [app dget]. destruct (eq_dec (chars "@xmlns") ("@" :: written sep short (fst a))) as [e|_]; [exfalso; injection e as e; exact (proj2 (ha2 a (or_introl eq_refl)) (eq_sym e))|].
  rewrite dget_app_l.
  - unfold U. cbn [app dget]. destruct (eq_dec (chars "@xmlns") (chars "@xmlns")); [reflexivity|congruence].
  - intros i. unfold dkeys in i. rewrite map_map in i. cbn [fst] in i. apply in_map_iff in i. destruct i as (b & e & i). injection e as e. exact (proj2 (ha2 b (or_intror i)) e).
Qed.
Print Assumptions moved_declaration_refuted.

(** * Writing *)
(** Prefixes change names only: the document is the one written without them, each name in its prefix. *)
Lemma tag_of prefixes declared k : Agree prefixes declared -> ElementKey prefixes declared k -> Tag prefixes k (prefixed prefixes k).
Proof.
  intros hag [l hl ht hn|u l p hl hu ht hp].
  - rewrite (nm_none prefixes declared hag) by apply hl. apply tag_none. apply hl.
  - rewrite (nm_in prefixes declared hag u l p (proj2 hl) hu hp). destruct p as [|c p]; [apply tag_default; [apply hl|exact hp]|apply tag_prefix; [apply hl|exact hp|discriminate]].
Qed.
Lemma attr_of prefixes declared k : Agree prefixes declared -> AttributeKey prefixes k -> Tag prefixes k (am prefixes k).
Proof.
  intros hag [l hl ht|u l p hl hu hp hne].
  - rewrite (am_none prefixes declared hag) by apply hl. apply tag_none. apply hl.
  - rewrite (am_in prefixes declared hag u l p (proj2 hl) hu hp hne). apply tag_prefix; [apply hl|exact hp|exact hne].
Qed.
Lemma bal_renamed prefixes declared evs : Agree prefixes declared -> Bal prefixes declared evs -> Forall2 (Renamed prefixes) evs (map (ren prefixes) evs).
Proof.
  intros hag. induction 1 as [|s evs h IH|n a evs evs' hn ha hd h1 IH1 h2 IH2]; cbn [map ren]; [constructor|constructor; [constructor|exact IH]|].
  constructor.
  - constructor; [apply (tag_of prefixes declared); assumption|]. unfold ren_attrs. clear - hag ha. induction a as [|[k v] a IH]; [constructor|]. cbn [map]. constructor.
    + split; [apply (attr_of prefixes declared); [exact hag|apply (ha k v); left; reflexivity]|reflexivity].
    + apply IH. intros k' v' i. apply (ha k' v'). right. exact i.
  - rewrite map_app. apply Forall2_app; [exact IH1|]. cbn [map ren]. constructor; [constructor; apply (tag_of prefixes declared); assumption|exact IH2].
Qed.
(** Exactly one root is written. *)
Theorem one_root_with_namespaces : forall prefixes pretty newl indent repr d, length d <> 1 -> unparse_ns pretty newl indent repr prefixes d = Err ValueError.
Proof. intros prefixes pretty newl indent repr [|[k v] [|x d]] h; try reflexivity. destruct (h eq_refl). Qed.
Print Assumptions one_root_with_namespaces.
Theorem prefixes_only_rename : forall prefixes declared pretty newl indent repr key v, Agree prefixes declared -> ElementKey prefixes declared key -> ValueKeys prefixes declared v ->
  match unparse pretty newl indent repr [(key, v)] with
  | Ok evs => exists evs', unparse_ns pretty newl indent repr prefixes [(key, v)] = Ok evs' /\ Forall2 (Renamed prefixes) evs evs'
  | Err e => unparse_ns pretty newl indent repr prefixes [(key, v)] = Err e
  end.
Proof.
  intros prefixes declared pretty newl indent repr key v hag hk hv.
  assert (W : forall w, ValueKeys prefixes declared w -> Both prefixes declared (emit_one pretty newl indent repr 0 key w) (emit_ns pretty newl indent repr prefixes 0 key w)).
  { intros w hw. apply (proj2 (emit_both prefixes declared hag (root_scope declared) (root_scope_get prefixes declared hag) pretty newl indent repr w hw)). exact hk. }
  assert (F : forall a b, Both prefixes declared a b -> match a with Ok evs => exists evs', b = Ok evs' /\ Forall2 (Renamed prefixes) evs evs' | Err e => b = Err e end).
  { intros [evs|e] b h; [|exact h]. destruct h as (-> & h). eexists. split; [reflexivity|]. apply (bal_renamed prefixes declared); assumption. }
  unfold unparse, unparse_ns. destruct v as [|b|s|s|l|l]; try (apply F; apply W; exact hv). cbn [emit_root]. inversion hv as [| | | |l' hx|]; subst. destruct l as [|x [|y l]].
  - exists []. split; [reflexivity|constructor].
  - apply F. apply W. apply hx. left. reflexivity.
  - assert (w := W x (hx x (or_introl eq_refl))). destruct (emit_one pretty newl indent repr 0 key x) as [evs|e]; [destruct w as (-> & _)|cbn in w; rewrite w]; reflexivity.
Qed.
Print Assumptions prefixes_only_rename.
(** What was written with prefixes, and their declarations on the root, reads back as it was. *)
Theorem namespaces_round_trip : forall prefixes declared pretty newl indent repr force key attrs kids text tail, Agree prefixes declared ->
  Blank newl -> Blank indent -> force (chars "#text") = false -> force (chars "#tail") = false ->
  ElementKey prefixes declared key -> attrs <> [] -> ElemOk pretty (Elt attrs kids text tail) -> KeysOk prefixes declared (Elt attrs kids text tail) ->
  exists evs, unparse_ns pretty newl indent repr prefixes [(key, one force key [declaring force declared attrs kids text tail])] = Ok evs /\
    parse_ns ":" None force evs = Some (Some [(key, one force key [declaring force declared attrs kids text tail])]).
Proof.
  intros prefixes declared pretty newl indent repr force key attrs kids text tail hag hn hi h1 h2 hk ane ok keys.
  destruct (round_trip prefixes declared hag pretty newl indent repr force hn hi h1 h2 key attrs kids text tail hk ane ok keys) as (evs & e1 & e2).
  exists evs. split; [|exact e2]. unfold unparse_ns. cbn [one]. destruct (force key); exact e1.
Qed.
Print Assumptions namespaces_round_trip.
(** FINDING: an element in a namespace without prefix is written out of it. *)
Theorem unmapped_namespace_refuted : forall prefixes pretty newl indent repr u l v, prefixes <> [] -> ~ In ":" l -> Unmarked u -> dget u prefixes = None ->
  unparse_ns pretty newl indent repr prefixes [(u ++ ":" :: l, v)] = unparse_ns pretty newl indent repr prefixes [(l, v)].
Proof.
  intros prefixes pretty newl indent repr u l v np hl hu hg.
  assert (e : prefixed prefixes (u ++ ":" :: l) = prefixed prefixes l).
  { unfold prefixed. rewrite rcut_app, rcut_none by exact hl. destruct prefixes; [congruence|]. rewrite (proj1 (unmarked_strip u hu)), hg. reflexivity. }
  assert (E : forall w, emit_ns pretty newl indent repr prefixes 0 (u ++ ":" :: l) w = emit_ns pretty newl indent repr prefixes 0 l w) by (intros w; destruct w; cbn [emit_ns]; rewrite e; reflexivity).
  unfold unparse_ns. destruct v as [|b|s|s|d|[|x [|y xs]]]; try apply E; [reflexivity|]. rewrite E. reflexivity.
Qed.
Print Assumptions unmapped_namespace_refuted.
(** FINDING: an attribute in a namespace without prefix, or in the default one, loses the first letter of its name as well. *)
Theorem unmapped_attribute_refuted : forall prefixes newl indent repr key u c l s, prefixes <> [] -> ~ In ":" (c :: l) -> Unmarked u ->
  dget u prefixes = None \/ dget u prefixes = Some [] ->
  unparse_ns false newl indent repr prefixes [(key, XDict [("@" :: u ++ ":" :: c :: l, XStr s)])] = Ok [Start (prefixed prefixes key) [(l, s)]; End (prefixed prefixes key)].
Proof.
  intros prefixes newl indent repr key u c l s np hl hu hg.
  assert (e : prefixed prefixes ("@" :: u ++ ":" :: c :: l) = c :: l).
  { unfold prefixed. change ("@" :: u ++ ":" :: c :: l) with (("@" :: u) ++ ":" :: c :: l). rewrite rcut_app by exact hl. destruct prefixes; [congruence|].
    rewrite (proj2 (unmarked_strip u hu)). destruct hg as [-> | ->]; reflexivity. }
  unfold unparse_ns. cbn [emit_ns attrs_ns]. change (beq ("@" :: u ++ ":" :: c :: l) cdata_key || beq ("@" :: u ++ ":" :: c :: l) tail_key || negb (is_attr ("@" :: u ++ ":" :: c :: l))) with false. cbn iota.
  rewrite e. cbn [tl attr_text dset existsb fst]. change (is_child ("@" :: u ++ ":" :: c :: l)) with false.
  assert (g : forall k, k <> "@" :: u ++ ":" :: c :: l -> dget k [("@" :: u ++ ":" :: c :: l, XStr s)] = None) by (intros k h; cbn [dget]; destruct (eq_dec k ("@" :: u ++ ":" :: c :: l)); [contradiction|reflexivity]).
  rewrite !g by discriminate. reflexivity.
Qed.
Print Assumptions unmapped_attribute_refuted.

(** * Examples *)
Local Open Scope string_scope.
Local Open Scope list_scope.
Notation "'!' s" := (chars s) (at level 1).
(** <a xmlns="u" xmlns:b="v" c="1"><b:d>x</b:d></a> *)
Definition ex_kids : list (str * xml * str) := [(!"b:d", Xml [] !"x" [], [])].
Definition ex_xml : xml := Xml [(!"xmlns", !"u"); (!"xmlns:b", !"v"); (!"c", !"1")] [] ex_kids.
Definition ex_n : nxml := NX [([], XStr !"u"); (!"b", XStr !"v")] [(([], !"c"), !"1")] [] [((!"v", !"d"), NX [] [] !"x" [], [])].
Lemma ex_ident (s : str) : (match s with [] => false | _ => negb (mem ":"%char s) end) = true -> Ident s.
Proof. intros h. destruct s as [|c s]; [discriminate|]. split; [discriminate|]. apply negb_true_iff in h. apply (mem_not_In _ ":"%char (c :: s)). exact h. Qed.
Example ex_means : Means at_start !"a" ex_xml (!"u", !"a") ex_n.
Proof.
  apply (means at_start !"a" [(!"xmlns", !"u"); (!"xmlns:b", !"v"); (!"c", !"1")] [] ex_kids (!"u", !"a") [([], !"u"); (!"b", !"v")] [(([], !"c"), !"1")]).
  - repeat constructor; cbn; intuition discriminate.
  - apply (so_decl _ []); [repeat split; cbn; intuition discriminate|]. apply (so_decl _ !"b"); [repeat split; cbn; intuition discriminate|].
    apply (so_attr _ !"c"); [|constructor]. apply an_none; [apply ex_ident; reflexivity|discriminate].
  - repeat constructor; cbn; intuition discriminate.
  - apply en_default; [apply ex_ident; reflexivity|reflexivity|discriminate].
  - apply (mean_cons _ !"b:d" (Xml [] !"x" []) [] [] (!"v", !"d") (NX [] [] !"x" []) []); [|constructor].
    apply (means _ !"b:d" [] !"x" [] (!"v", !"d") [] [] []); [constructor|constructor|constructor| |constructor].
    apply (en_prefix _ !"b" !"d" !"v"); [apply ex_ident; reflexivity|apply ex_ident; reflexivity|reflexivity|discriminate].
Qed.
Example ex_nok : NOk ":"%char None ex_n /\ Kept ex_n.
Proof.
  split.
  - constructor; [repeat constructor; intros []| |].
    + intros a [<-|[]]. split; [cbn; intuition discriminate|discriminate].
    + intros k [<-|[]]. split; [cbn; intuition discriminate|]. split; [split; [discriminate|]; split; [discriminate|]; intros s; discriminate|].
      constructor; [constructor|intros ? []|intros ? []].
  - constructor; [discriminate|]. intros k [<-|[]]. constructor; [congruence|intros ? []].
Qed.
Example ex_read : parse_ns ":"%char None (fun _ => false) (events !"a" ex_xml) =
  Some (Some [(!"u:a", XDict [(!"@c", XStr !"1"); (!"@xmlns", XDict [([], XStr !"u"); (!"b", XStr !"v")]); (!"v:d", XStr !"x")])]).
Proof. reflexivity. Qed.
Example ex_short : parse_ns ":"%char (Some [(!"u", []); (!"v", !"w")]) (fun _ => false) (events !"a" ex_xml) =
  Some (Some [(!"a", XDict [(!"@c", XStr !"1"); (!"@xmlns", XDict [([], XStr !"u"); (!"b", XStr !"v")]); (!"w:d", XStr !"x")])]).
Proof. reflexivity. Qed.
(** the same without the attribute, and with it on the child *)
Example ex_lost : parse_ns ":"%char None (fun _ => false) (events !"a" (Xml [(!"xmlns", !"u")] [] [(!"d", Xml [] !"x" [], [])])) =
  Some (Some [(!"u:a", XDict [(!"u:d", XStr !"x")])]).
Proof. reflexivity. Qed.
Example ex_moved : parse_ns ":"%char None (fun _ => false) (events !"a" (Xml [(!"xmlns", !"u")] [] [(!"d", Xml [(!"c", !"1")] [] [], [])])) =
  Some (Some [(!"u:a", XDict [(!"u:d", XDict [(!"@c", XStr !"1"); (!"@xmlns", XDict [([], XStr !"u")])])])]).
Proof. reflexivity. Qed.
Example ex_refused : parse_ns ":"%char None (fun _ => false) (events !"p:a" (Xml [] [] [])) = None.
Proof. reflexivity. Qed.
(** writing *)
Definition ex_prefixes : dict str str := [(!"u", []); (!"v", !"b")].
Definition ex_declared : dict str str := [([], !"u"); (!"b", !"v")].
Example ex_agree : Agree ex_prefixes ex_declared.
Proof.
  split; [repeat constructor; cbn; intuition discriminate|]. split; [discriminate|]. split.
  - intros d [<-|[<-|[]]]; (split; [repeat split; cbn; intuition discriminate|discriminate]).
  - intros u p. unfold ex_prefixes. cbn [dget]. destruct (eq_dec u !"u") as [->|]; [intros e; injection e as <-; reflexivity|]. destruct (eq_dec u !"v") as [->|]; [intros e; injection e as <-; reflexivity|discriminate].
Qed.
Lemma ex_unmarked c : c <> "@"%char -> Unmarked [c].
Proof. intros h. split; [intros s e; injection e as e _; contradiction|]. intros [|d [|d' s]] e; [injection e as e; contradiction|discriminate|discriminate]. Qed.
Example ex_keys : ElementKey ex_prefixes ex_declared !"u:a" /\ KeysOk ex_prefixes ex_declared (Elt [(!"v:c", !"1")] [(!"v:d", [Leaf !"x"; Leaf !"y"])] [] []) /\
  ElemOk false (Elt [(!"v:c", !"1")] [(!"v:d", [Leaf !"x"; Leaf !"y"])] [] []).
Proof.
  assert (tg : forall c d, c <> "@"%char -> TagName (c :: ":"%char :: [d])) by (intros c d h; split; [discriminate|]; split; [discriminate|]; intros s e; injection e as e _; contradiction).
  split; [apply (ek_in _ _ !"u" !"a" []); [apply ex_ident; reflexivity|apply ex_unmarked; discriminate|apply tg; discriminate|reflexivity]|]. split.
  - constructor.
    + intros k v [e|[]]. injection e as <- <-. apply (ak_in _ !"v" !"c" !"b"); [apply ex_ident; reflexivity|apply ex_unmarked; discriminate|reflexivity|discriminate].
    + intros k es [e|[]]. injection e as <- <-. split; [apply (ek_in _ _ !"v" !"d" !"b"); [apply ex_ident; reflexivity|apply ex_unmarked; discriminate|apply tg; discriminate|reflexivity]|].
      intros e [<-|[<-|[]]]; constructor.
  - assert (tr : forall c, ~ In c whitespace -> trimmed [c]) by (intros c h; split; [intros x r e i; injection e as -> _; contradiction|intros r x e i; destruct r as [|y [|z r]]; [injection e as ->; contradiction|discriminate|discriminate]]).
    assert (te : trimmed []) by (split; [intros x r e; discriminate|intros r x e; destruct r; discriminate]).
    constructor; [repeat constructor; intros []|repeat constructor; intros []|left; discriminate| |exact te|exact te|congruence].
    intros k es [e|[]]. injection e as <- <-. split; [apply tg; discriminate|]. split; [discriminate|]. intros e [<-|[<-|[]]]; constructor; apply tr; cbn; intuition discriminate.
Qed.
Example ex_written : unparse_ns false [] [] (fun _ => []) ex_prefixes
    [(!"u:a", declaring (fun _ => false) ex_declared [(!"v:c", !"1")] [(!"v:d", [Leaf !"x"; Leaf !"y"])] [] [])] =
  Ok [Start !"a" [(!"b:c", !"1"); (!"xmlns", !"u"); (!"xmlns:b", !"v")]; Start !"b:d" []; Chars !"x"; End !"b:d"; Start !"b:d" []; Chars !"y"; End !"b:d"; End !"a"].
Proof. reflexivity. Qed.
Example ex_unmapped : unparse_ns false [] [] (fun _ => []) ex_prefixes [(!"w:a", XDict [(!"@w:cd", XStr !"1"); (!"@u:ef", XStr !"2")])] = Ok [Start !"a" [(!"d", !"1"); (!"f", !"2")]; End !"a"].
Proof. reflexivity. Qed.
