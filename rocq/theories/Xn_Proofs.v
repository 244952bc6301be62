(** Proofs for Xn_Props. *)
From Verif Require Import Base Coll_Model Types_Proofs Xml_Model Xml_Spec Xml_Proofs Xn_Model Xn_Spec.
Local Open Scope char_scope.
Local Open Scope list_scope.

(** * Cutting names *)
Lemma rcut_none sep s : ~ In sep s -> rcut sep s = None.
Proof.
  induction s as [|c s IH]; intros n; [reflexivity|]. cbn [rcut]. rewrite IH by (intros i; apply n; right; exact i).
  rewrite (proj2 (beq_false _ c sep)); [reflexivity|]. intros ->. apply n. left. reflexivity.
Qed.
Lemma rcut_app sep u l : ~ In sep l -> rcut sep (u ++ sep :: l) = Some (u, l).
Proof.
  intros n. induction u as [|c u IH]; cbn [app rcut]; [rewrite rcut_none by exact n; rewrite beq_refl; reflexivity|]. rewrite IH. reflexivity.
Qed.
Lemma cut_none sep s : ~ In sep s -> cut sep s = None.
Proof.
  induction s as [|c s IH]; intros n; [reflexivity|]. cbn [cut]. rewrite IH by (intros i; apply n; right; exact i).
  rewrite (proj2 (beq_false _ c sep)); [reflexivity|]. intros ->. apply n. left. reflexivity.
Qed.
Lemma cut_app sep p l : ~ In sep p -> cut sep (p ++ sep :: l) = Some (p, l).
Proof.
  induction p as [|c p IH]; intros n; cbn [app cut]; [rewrite beq_refl; reflexivity|]. rewrite (proj2 (beq_false _ c sep)) by (intros ->; apply n; left; reflexivity).
  rewrite IH by (intros i; apply n; right; exact i). reflexivity.
Qed.
Lemma qname_plain l : Ident l -> qname l = Some ([], l).
Proof. intros (h1 & h2). unfold qname. rewrite cut_none by exact h2. destruct l; [congruence|reflexivity]. Qed.
Lemma qname_prefix p l : Ident p -> Ident l -> qname (p ++ ":" :: l) = Some (p, l).
Proof.
  intros (h1 & h2) (h3 & h4). unfold qname. rewrite cut_app by exact h2. destruct p as [|c p]; [congruence|]. destruct l as [|d l]; [congruence|].
  rewrite (proj2 (mem_not_In _ ":" (d :: l)) h4). reflexivity.
Qed.
Lemma ident_xmlns : Ident (chars "xmlns").
Proof. split; [discriminate|]. cbn. intuition discriminate. Qed.
Lemma declares_key p : ~ In ":" p -> declares (decl_key p) = Some p.
Proof.
  intros h. unfold declares. destruct p as [|c p]; [cbn [decl_key]; rewrite (qname_plain _ ident_xmlns); rewrite beq_refl; reflexivity|].
  change (decl_key (c :: p)) with (chars "xmlns" ++ ":" :: c :: p). rewrite qname_prefix; [|exact ident_xmlns|split; [discriminate|exact h]].
  change (match chars "xmlns" with [] => if beq (c :: p) (chars "xmlns") then Some [] else None | _ => if beq (chars "xmlns") (chars "xmlns") then Some (c :: p) else None end = Some (c :: p)).
  rewrite beq_refl. reflexivity.
Qed.
Lemma declares_attr sc k n : AttributeName sc k n -> declares k = None.
Proof.
  intros h. unfold declares. destruct h as [l hi hn|p l u hp hn hl hs hu].
  - rewrite qname_plain by exact hi. rewrite (proj2 (beq_false _ l (chars "xmlns")) hn). reflexivity.
  - rewrite qname_prefix by assumption. rewrite (proj2 (beq_false _ p (chars "xmlns")) hn). destruct p; [destruct hp; congruence|reflexivity].
Qed.

Lemma full_inj sep (n m : name) : ~ In sep (snd n) -> ~ In sep (snd m) -> full sep n = full sep m -> n = m.
Proof.
  destruct n as [u l], m as [v k]. unfold full. cbn [fst snd]. intros h1 h2 e.
  destruct u as [|c u]; destruct v as [|d v].
  - subst. reflexivity.
  - exfalso. apply h1. rewrite e. apply in_or_app. right. left. reflexivity.
  - exfalso. apply h2. rewrite <- e. apply in_or_app. right. left. reflexivity.
  - assert (e2 := f_equal (rcut sep) e). rewrite !rcut_app in e2 by assumption. congruence.
Qed.
Lemma build_full sep short (n : name) : ~ In sep (snd n) -> build_name sep short (full sep n) = written sep short n.
Proof.
  intros h. unfold build_name, written. destruct short as [m|]; [|reflexivity]. destruct n as [u l]. cbn [snd fst] in *. unfold full. cbn [fst snd].
  destruct u as [|c u]; [rewrite rcut_none by exact h; reflexivity|]. rewrite rcut_app by exact h. destruct (dget (c :: u) m) as [[|d s]|]; reflexivity.
Qed.

(** * Scanning a document *)
Section Scanned.
  Variable sep : ascii.
  Definition same_scope (d : scope) (sc : known) : Prop := forall p, dget p d = sc p.
  Fixpoint nevents (n : name) (x : nxml) : list nev :=
    match x with
    | NX ds attrs first kids =>
        map (fun d => NDecl (fst d) (snd d)) ds ++
        NStart (full sep n) (map (fun a => (full sep (fst a), snd a)) attrs) :: NChars first ::
        flat_map (fun k => nevents (fst (fst k)) (snd (fst k)) ++ [NChars (snd k)]) kids ++ [NEnd (full sep n)]
    end.
  Lemma element_name_spec d sc n m : same_scope d sc -> ElementName sc n m -> element_name sep d n = Some (full sep m).
  Proof.
    intros h e. unfold element_name, full. destruct e as [l hi hs|l u hi hs hu|p l u hp hl hs hu]; cbn [fst snd].
    - rewrite qname_plain by exact hi. rewrite h. destruct hs as [-> | ->]; reflexivity.
    - rewrite qname_plain by exact hi. rewrite h, hs. destruct u; [congruence|reflexivity].
    - rewrite qname_prefix by assumption. rewrite h, hs. destruct u; [congruence|reflexivity].
  Qed.
  Lemma attribute_name_spec d sc n m : same_scope d sc -> AttributeName sc n m -> attribute_name sep d n = Some (full sep m).
  Proof.
    intros h e. unfold attribute_name, full. destruct e as [l hi hn|p l u hp hn hl hs hu]; cbn [fst snd].
    - rewrite qname_plain by exact hi. reflexivity.
    - rewrite qname_prefix by assumption. destruct p as [|c p]; [destruct hp; congruence|]. rewrite h, hs. destruct u; [congruence|reflexivity].
  Qed.
  Lemma decl_key_inj p q : decl_key p = decl_key q -> p = q.
  Proof. destruct p, q; cbn; intros e; congruence. Qed.
  Lemma attr_not_decl sc q n : ~ AttributeName sc (decl_key q) n.
  Proof.
    intros h. inversion h as [l (_ & hc) hx e|p l u hp hx hl hs hu e]; subst.
    - destruct q; [apply hx; reflexivity|]. apply hc. cbn. tauto.
    - destruct q as [|c q]; [apply (proj2 ident_xmlns); change (In ":" (decl_key [])); rewrite <- e; apply in_or_app; right; left; reflexivity|].
      assert (e2 := f_equal (cut ":") e). change (decl_key (c :: q)) with (chars "xmlns" ++ ":" :: c :: q) in e2. rewrite !cut_app in e2 by (apply hp || apply ident_xmlns).
      assert (e3 : Some p = Some (chars "xmlns")) by (exact (f_equal (option_map fst) e2)). injection e3 as e3. apply hx. exact e3.
  Qed.
  Lemma sorted_declare sc attrs ds ats : Sorted_out sc attrs ds ats -> NoDup (map fst attrs) -> forall d sc0, same_scope d sc0 ->
    exists d', declare attrs d = Some (d', map (fun x => NDecl (fst x) (snd x)) (reported ds)) /\ same_scope d' (inside attrs sc0).
  Proof.
    induction 1 as [|p u attrs ds ats ok h IH|k n v attrs ds ats hk h IH]; intros nd d sc0 hd.
    - exists d. split; [reflexivity|exact hd].
    - inversion nd as [|x l nin nd']; subst. destruct ok as (o1 & o2 & o3 & o4). cbn [fst snd] in *.
      destruct (IH nd' (dset p u d) (fun q => if eq_dec q p then Some u else sc0 q)) as (d' & e & hd').
      { intros q. rewrite dget_dset. destruct (eq_dec q p) as [->|ne]; [destruct (eq_dec p p); [reflexivity|congruence]|]. destruct (eq_dec p q); [congruence|]. apply hd. }
      exists d'. split.
      + cbn [declare]. rewrite declares_key by exact o1. unfold may_declare. rewrite (proj2 (beq_false _ p (chars "xml")) o2), (proj2 (beq_false _ p (chars "xmlns")) o3).
        cbn [negb andb]. assert (e2 : match u with [] => beq p [] | _ :: _ => true end = true) by (destruct u; [rewrite (o4 eq_refl); reflexivity|reflexivity]).
        rewrite e2, e. reflexivity.
      + intros q. rewrite hd'. unfold inside. cbn [dget]. destruct (eq_dec (decl_key q) (decl_key p)) as [eq|ne].
        * apply decl_key_inj in eq. subst q. destruct (dget (decl_key p) attrs) eqn:eg; [apply dget_Some_key in eg; contradiction|].
          destruct (eq_dec p p); [reflexivity|congruence].
        * destruct (dget (decl_key q) attrs); [reflexivity|]. destruct (eq_dec q p) as [->|]; [congruence|reflexivity].
    - inversion nd as [|x l nin nd']; subst. destruct (IH nd' d sc0 hd) as (d' & e & hd'). exists d'. split.
      + cbn [declare]. rewrite (declares_attr sc k n hk). exact e.
      + intros q. rewrite hd'. unfold inside. cbn [dget]. destruct (eq_dec (decl_key q) k) as [eq|ne]; [|reflexivity].
        exfalso. subst k. exact (attr_not_decl sc q n hk).
  Qed.
  Lemma sorted_attributes sc attrs ds ats : Sorted_out sc attrs ds ats -> forall d, same_scope d sc ->
    attributes sep attrs d = Some (map (fun a => (full sep (fst a), snd a)) ats).
  Proof.
    induction 1 as [|p u attrs ds ats ok h IH|k n v attrs ds ats hk h IH]; intros d hd; [reflexivity| |]; cbn [attributes].
    - destruct ok as (o1 & _). rewrite declares_key by exact o1. apply IH. exact hd.
    - rewrite (declares_attr sc k n hk), (attribute_name_spec d sc k n hd hk), (IH d hd). reflexivity.
  Qed.
  Lemma distinct_full (ats : list (name * str)) : NoDup (map fst ats) -> (forall a, In a ats -> ~ In sep (snd (fst a))) ->
    distinct (map fst (map (fun a => (full sep (fst a), snd a)) ats)) = true.
  Proof.
    induction ats as [|a ats IH]; intros nd h; [reflexivity|]. inversion nd as [|x l nin nd']; subst. cbn [map distinct fst].
    rewrite IH; [|exact nd'|intros b i; apply h; right; exact i]. rewrite andb_true_r. apply negb_true_iff. apply mem_not_In. intros i.
    rewrite map_map in i. cbn [fst] in i. apply in_map_iff in i. destruct i as (b & e & i). apply nin. apply in_map_iff. exists b. split; [|exact i].
    apply (full_inj sep); [apply h; right; exact i|apply h; left; reflexivity|exact e].
  Qed.
  Lemma scan_element x : forall sc n m y, Means sc n x m y -> Local sep y -> forall d stack rest, same_scope d sc ->
    scan sep d stack (events n x ++ rest) = match scan sep d stack rest with Some r => Some (nevents m y ++ r) | None => None end.
  Proof.
    induction x as [attrs first kids IH] using xml_rect'. intros sc n m y h lo d stack rest hd.
    inversion h as [sc' n' attrs' first' kids0 m' ds ats kids' nd so nda en mk]; subst. inversion lo as [ds' a' f' k' la lk]; subst.
    cbn [events app scan]. destruct (sorted_declare _ attrs ds ats so nd d sc hd) as (d' & e & hd'). rewrite e.
    rewrite (element_name_spec d' _ n m hd' en), (sorted_attributes _ attrs ds ats so d' hd'), distinct_full by assumption.
    assert (K : forall kids kids', MeanKids (inside attrs sc) kids kids' ->
      (forall k, In k kids -> forall sc n m y, Means sc n (snd (fst k)) m y -> Local sep y -> forall d stack rest, same_scope d sc ->
        scan sep d stack (events n (snd (fst k)) ++ rest) = match scan sep d stack rest with Some r => Some (nevents m y ++ r) | None => None end) ->
      (forall k, In k kids' -> Local sep (snd (fst k))) -> forall stack rest,
      scan sep d' stack (flat_map (fun k => events (fst (fst k)) (snd (fst k)) ++ [Chars (snd k)]) kids ++ rest) =
      match scan sep d' stack rest with Some r => Some (flat_map (fun k => nevents (fst (fst k)) (snd (fst k)) ++ [NChars (snd k)]) kids' ++ r) | None => None end).
    { clear - hd'. intros kids kids' mk. revert mk. generalize (inside attrs sc) hd'. clear. intros sc hd'. 
      induction kids as [|[[n x] t] kids IHk] in kids' |- *; intros mk hI hL stack rest; inversion mk; subst.
      - cbn [flat_map app]. destruct (scan sep d' stack rest); reflexivity.
      - cbn [flat_map fst snd]. rewrite <- !app_assoc. rewrite (hI (n, x, t) (or_introl eq_refl) sc n m y) by (assumption || (apply (hL (m, y, t)); left; reflexivity)).
        cbn [app scan]. rewrite (IHk kids'0) by (assumption || (intros; eapply hI; eauto; right; assumption) || (intros; apply hL; right; assumption)).
        destruct (scan sep d' stack rest); [|reflexivity]. cbn [flat_map fst snd]. rewrite <- !app_assoc. reflexivity. }
    cbn [app scan]. rewrite <- app_assoc. rewrite (K kids kids' mk).
    - cbn [app scan]. destruct (scan sep d stack rest); [|reflexivity]. cbn [nevents]. rewrite <- !app_assoc. cbn [app]. rewrite <- !app_assoc. reflexivity.
    - intros k i. apply IH. exact i.
    - intros k i. apply lk. exact i.
  Qed.
End Scanned.

(** * Reading the events *)
Definition nxml_rect' (P : nxml -> Prop) (h : forall ds attrs first kids, (forall k, In k kids -> P (snd (fst k))) -> P (NX ds attrs first kids)) : forall x, P x :=
  fix go x := match x with
  | NX ds attrs first kids => h ds attrs first kids
      ((fix all (l : list (name * nxml * str)) : forall k, In k l -> P (snd (fst k)) :=
          match l with
          | [] => fun _ i => match i with end
          | y :: l' => fun k i => match i with or_introl e => eq_ind y (fun k => P (snd (fst k))) (go (snd (fst y))) k e | or_intror i' => all l' k i' end
          end) kids)
  end.
Fixpoint place_kids (kids : list (name * nxml * str)) (pend : dict str xval) : list (name * nxml * str) * dict str xval :=
  match kids with
  | [] => ([], pend)
  | (n, k, t) :: r => let (k', p1) := place pend k in let (r', p2) := place_kids r p1 in ((n, k', t) :: r', p2)
  end.
Lemma place_eq pend ds attrs first kids : place pend (NX ds attrs first kids) =
  match attrs with
  | [] => let (ks, p) := place_kids kids (update pend ds) in (NX [] [] first ks, p)
  | _ => let (ks, p) := place_kids kids [] in (NX (update pend ds) attrs first ks, p)
  end.
Proof. reflexivity. Qed.
Lemma place_kids_names kids : forall pend, map (fun k => fst (fst k)) (fst (place_kids kids pend)) = map (fun k => fst (fst k)) kids /\
  map snd (fst (place_kids kids pend)) = map snd kids.
Proof.
  induction kids as [|[[n k] t] r IH]; intros pend; [split; reflexivity|]. cbn [place_kids]. destruct (place pend k) as [k' p1]. specialize (IH p1).
  destruct (place_kids r p1) as [r' p2]. cbn [fst map snd] in *. destruct IH as (-> & ->). split; reflexivity.
Qed.

Section Run.
  Variable sep : ascii.
  Variable short : option (dict str str).
  Variable force : str -> bool.
  Hypothesis hsep : ~ In sep (chars "xmlns").
  Notation W := (written sep short).
  Notation push := (push_data force).
  Notation runn := (fold_left (handle_ns sep short force)).
  Notation St b it ds st pend := {| n_st := {| p_buf := b; p_item := it; p_data := ds; p_stack := st |}; n_decls := pend |}.

  Lemma flush_flush s : flush (flush s) = flush s.
  Proof. destruct s as [b it ds st]. rewrite !flush_eq. cbn [opt]. rewrite app_nil_r. reflexivity. Qed.
  Lemma run_decls ds : forall s, flush (n_st (runn (map (fun d => NDecl (fst d) (snd d)) ds) s)) = flush (n_st s) /\
    n_decls (runn (map (fun d => NDecl (fst d) (snd d)) ds) s) = update (n_decls s) ds.
  Proof.
    induction ds as [|d ds IH]; intros s; [split; reflexivity|]. cbn [map fold_left]. destruct (IH (handle_ns sep short force s (NDecl (fst d) (snd d)))) as (e1 & e2).
    rewrite e1, e2. cbn [handle_ns n_st n_decls]. rewrite flush_flush. split; reflexivity.
  Qed.
  Lemma full_xmlns (n : name) : W n <> chars "xmlns" -> full sep n <> chars "xmlns".
  Proof.
    intros h e. apply h. destruct n as [[|c u] l]; [unfold written; destruct short; exact e|]. exfalso. apply hsep. rewrite <- e. unfold full. cbn [fst snd].
    apply in_or_app. right. left. reflexivity.
  Qed.
  Lemma entries_map (l : list (str * xval)) : NoDup (map (fun kv => build_name sep short (fst kv)) l) ->
    entries sep short l = map (fun kv => ("@" :: build_name sep short (fst kv), snd kv)) l.
  Proof.
    intros nd. unfold entries.
    assert (H : forall acc, (forall kv, In kv l -> ~ In ("@" :: build_name sep short (fst kv)) (dkeys acc)) ->
      fold_left (fun acc kv => dset ("@" :: build_name sep short (fst kv)) (snd kv) acc) l acc = acc ++ map (fun kv => ("@" :: build_name sep short (fst kv), snd kv)) l).
    { induction l as [|[k v] l IH]; intros acc h; [symmetry; apply app_nil_r|]. inversion nd as [|x y nin nd']; subst. cbn [fold_left map fst snd].
      rewrite dset_new by (apply (h (k, v)); left; reflexivity). rewrite IH; [rewrite <- app_assoc; reflexivity|exact nd'|].
      intros kv i j. unfold dkeys in j. rewrite map_app in j. apply in_app_iff in j. destruct j as [j|[j|[]]].
      - apply (h kv); [right; exact i|exact j].
      - cbn [fst] in j. injection j as j. apply nin. apply in_map_iff. exists kv. split; [symmetry; exact j|exact i]. }
    apply H. intros kv _ [].
  Qed.
  Lemma build_xmlns : build_name sep short (chars "xmlns") = chars "xmlns".
  Proof. unfold build_name. rewrite rcut_none by exact hsep. destruct short; reflexivity. Qed.

  Definition attr_part (attrs : list (name * str)) (ds : dict str xval) : dict str xval :=
    map (fun a => ("@" :: W (fst a), XStr (snd a))) attrs ++ match ds with [] => [] | _ => [(chars "@xmlns", XDict ds)] end.
  Lemma start_spec attrs pend : NoDup (map (fun a => W (fst a)) attrs) -> (forall a, In a attrs -> ~ In sep (snd (fst a)) /\ W (fst a) <> chars "xmlns") ->
    with_decls (map (fun kv => (fst kv, XStr (snd kv))) (map (fun a => (full sep (fst a), snd a)) attrs)) pend =
      (match attrs with [] => [] | _ => match pend with [] => map (fun a => (full sep (fst a), XStr (snd a))) attrs | _ => map (fun a => (full sep (fst a), XStr (snd a))) attrs ++ [(chars "xmlns", XDict pend)] end end,
       match attrs with [] => pend | _ => [] end) /\
    entries sep short (fst (with_decls (map (fun kv => (fst kv, XStr (snd kv))) (map (fun a => (full sep (fst a), snd a)) attrs)) pend)) =
      match attrs with [] => [] | _ => attr_part attrs pend end.
  Proof.
    intros nd h. rewrite map_map. cbn [fst snd].
    assert (e : with_decls (map (fun a => (full sep (fst a), XStr (snd a))) attrs) pend =
      (match attrs with [] => [] | _ => match pend with [] => map (fun a => (full sep (fst a), XStr (snd a))) attrs | _ => map (fun a => (full sep (fst a), XStr (snd a))) attrs ++ [(chars "xmlns", XDict pend)] end end,
       match attrs with [] => pend | _ => [] end)).
    { unfold with_decls. destruct attrs as [|a attrs]; [reflexivity|]. cbn [map]. destruct pend as [|p pend]; [reflexivity|]. rewrite dset_new; [reflexivity|].
      intros i. change ((full sep (fst a), XStr (snd a)) :: map (fun a => (full sep (fst a), XStr (snd a))) attrs) with (map (fun a => (full sep (fst a), XStr (snd a))) (a :: attrs)) in i.
      unfold dkeys in i. rewrite map_map in i. cbn [fst] in i. apply in_map_iff in i. destruct i as (b & eb & ib). exact (full_xmlns (fst b) (proj2 (h b ib)) eb). }
    split; [exact e|]. rewrite e. cbn [fst]. destruct attrs as [|a attrs]; [reflexivity|]. set (l := a :: attrs) in *. clearbody l. clear e.
    assert (eb : forall T, map (fun kv : str * xval => build_name sep short (fst kv)) (map (fun a => (full sep (fst a), XStr (snd a))) l ++ T) = map (fun a => W (fst a)) l ++ map (fun kv => build_name sep short (fst kv)) T).
    { intros T. rewrite map_app, map_map. cbn [fst]. f_equal. apply map_ext_in. intros b ib. apply build_full. apply h. exact ib. }
    assert (em : forall T, map (fun kv : str * xval => ("@" :: build_name sep short (fst kv), snd kv)) (map (fun a => (full sep (fst a), XStr (snd a))) l ++ T) =
      map (fun a => ("@" :: W (fst a), XStr (snd a))) l ++ map (fun kv => ("@" :: build_name sep short (fst kv), snd kv)) T).
    { intros T. rewrite map_app, map_map. cbn [fst snd]. f_equal. apply map_ext_in. intros b ib. rewrite build_full; [reflexivity|]. apply h. exact ib. }
    unfold attr_part. destruct pend as [|p pend].
    - rewrite entries_map. + rewrite <- (app_nil_r (map (fun a0 => (full sep (fst a0), XStr (snd a0))) l)), em. reflexivity.
      + rewrite <- (app_nil_r (map (fun a0 => (full sep (fst a0), XStr (snd a0))) l)), eb. cbn [map]. rewrite app_nil_r. exact nd.
    - rewrite entries_map.
      + rewrite em. cbn [map fst snd]. rewrite build_xmlns. reflexivity.
      + rewrite eb. cbn [map fst]. rewrite build_xmlns. apply NoDup_app_intro; [exact nd|repeat constructor; intros []|].
        intros x i [<-|[]]. apply in_map_iff in i. destruct i as (b & e & ib). exact (proj2 (h b ib) e).
  Qed.
  Lemma shown_not_list x : not_list (shown sep short force x).
  Proof. intros l. destruct x as [[|d ds] [|a attrs] first [|k kids]]; simpl; discriminate. Qed.

  Lemma run_ns x : NOk sep short x -> forall n b it ds st pend, ~ In sep (snd n) ->
    runn (nevents sep n x) (St b it ds st pend) = St [] (Some (push it (W n) (shown sep short force (fst (place pend x))))) (ds ++ opt b) st (snd (place pend x)).
  Proof.
    induction x as [dl attrs first kids IH] using nxml_rect'. intros ok n b it ds st pend hn. inversion ok as [dl' at' f' ks' nd ha hk]; subst.
    cbn [nevents]. rewrite fold_left_app. cbn [fold_left]. destruct (run_decls dl (St b it ds st pend)) as (e1 & e2).
    set (s0 := runn (map (fun d => NDecl (fst d) (snd d)) dl) (St b it ds st pend)) in *. clearbody s0. cbn [n_st n_decls] in e1, e2. rewrite flush_eq in e1.
    unfold handle_ns at 3. rewrite e1, e2. cbn [p_item p_data p_stack]. set (all := update pend dl).
    destruct (start_spec attrs all nd ha) as (w1 & w2). rewrite w1 in w2 |- *. cbn [fst] in w2. rewrite w2. clear w1 w2 e1 e2 s0.
    cbn [handle_ns n_st n_decls handle p_buf p_item p_data p_stack app]. rewrite fold_left_app.
    set (item0 := match (match attrs with [] => [] | _ => attr_part attrs all end) with [] => None | d => Some d end).
    set (pend1 := match attrs with [] => all | _ => [] end). set (st' := (it, ds ++ opt b) :: st).
    assert (K : forall kids, (forall k, In k kids -> ~ In sep (snd (fst (fst k)))) -> (forall k, In k kids -> forall n b it ds st pend, ~ In sep (snd n) ->
        runn (nevents sep n (snd (fst k))) (St b it ds st pend) = St [] (Some (push it (W n) (shown sep short force (fst (place pend (snd (fst k))))))) (ds ++ opt b) st (snd (place pend (snd (fst k))))) ->
       forall s' b it ds pend, exists b', 
         runn (flat_map (fun k => nevents sep (fst (fst k)) (snd (fst k)) ++ [NChars (snd k)]) kids) (St b it ds s' pend) =
           {| n_st := b'; n_decls := snd (place_kids kids pend) |} /\
         flush b' = {| p_buf := []; p_item := pushes force it (map (fun k => (W (fst (fst k)), shown sep short force (snd (fst k)))) (fst (place_kids kids pend)));
                       p_data := ds ++ filter not_empty (b :: map snd kids); p_stack := s' |}).
    { clear. induction kids as [|[[k x] t] kids IHk]; intros hs hI s' b it ds pend.
      - eexists. split; [reflexivity|]. cbn [map pushes place_kids fst fold_left]. rewrite flush_eq. destruct b; reflexivity.
      - cbn [flat_map fst snd]. rewrite !fold_left_app. rewrite (hI (k, x, t)) by ((left; reflexivity) || (apply (hs (k, x, t)); left; reflexivity)).
        cbn [fold_left handle_ns handle n_st n_decls p_buf p_item p_data p_stack app fst snd].
        destruct (IHk (fun k' hk' => hs k' (or_intror hk')) (fun k' hk' => hI k' (or_intror hk')) s' t (Some (push it (W k) (shown sep short force (fst (place pend x))))) (ds ++ opt b) (snd (place pend x))) as (b' & r1 & r2).
        exists b'. cbn [place_kids]. destruct (place pend x) as [x' p1]. cbn [fst snd] in *. rewrite r1. destruct (place_kids kids p1) as [r' p2]. cbn [fst snd map] in *.
        split; [reflexivity|]. rewrite r2, <- app_assoc, opt_filter. reflexivity. }
    destruct (K kids (fun k i => proj1 (hk k i))) with (s' := st') (b := first) (it := item0) (ds := @nil str) (pend := pend1) as (b' & r1 & r2); clear K.
    { intros k i. apply IH; [exact i|]. apply (hk k i). }
    match goal with |- context [fold_left _ (flat_map _ _) ?s] => change s with (St first item0 [] st' pend1) end.
    rewrite r1. cbn [fold_left handle_ns n_st n_decls]. rewrite r2. cbn [app]. rewrite build_full by exact hn. rewrite place_eq.
    assert (ep : (match attrs with [] => let (ks, p) := place_kids kids (update pend dl) in (NX [] [] first ks, p) | _ :: _ => let (ks, p) := place_kids kids [] in (NX (update pend dl) attrs first ks, p) end) =
                 (NX (match attrs with [] => [] | _ => all end) attrs first (fst (place_kids kids pend1)), snd (place_kids kids pend1))).
    { unfold pend1, all. destruct attrs; [destruct (place_kids kids (update pend dl))|destruct (place_kids kids [])]; reflexivity. }
    rewrite ep. cbn [fst snd]. destruct (place_kids_names kids pend1) as (n1 & n2). set (ks := fst (place_kids kids pend1)) in *. clearbody ks. clear r1 r2 ep b'.
    match goal with |- context [filter not_empty ?l] => replace l with (first :: map snd ks) by (f_equal; exact n2) end. set (vs := map (fun k => (W (fst (fst k)), shown sep short force (snd (fst k)))) ks).
    assert (hvs : forall m, In m (map fst vs) -> TagName m).
    { intros m hm. unfold vs in hm. rewrite map_map in hm. cbn [fst] in hm. rewrite <- (map_map (fun k : name * nxml * str => fst (fst k)) W), n1, map_map in hm.
      apply in_map_iff in hm. destruct hm as (k & <- & hin). apply (hk k hin). }
    assert (hnl : forall kv, In kv vs -> not_list (snd kv)).
    { intros kv hin. apply in_map_iff in hin. destruct hin as (k & <- & _). apply shown_not_list. }
    set (A := match attrs with [] => [] | _ => attr_part attrs all end) in *.
    assert (hA : forall k, In k (dkeys A) -> exists s, k = "@" :: s).
    { intros k i. unfold A in i. destruct attrs as [|a attrs]; [destruct i|]. unfold dkeys, attr_part in i. rewrite map_app, map_map in i. apply in_app_iff in i. destruct i as [i|i].
      - apply in_map_iff in i. destruct i as (x & <- & _). eexists. reflexivity.
      - destruct all; [destruct i|]. destruct i as [<-|[]]. eexists. reflexivity. }
    assert (hp : pushes force item0 vs = match A, ks with [], [] => None | _, _ => Some (A ++ grouped force vs) end).
    { unfold item0. destruct A as [|a A'] eqn:EA.
      - destruct ks as [|k ks']; [reflexivity|]. transitivity (pushes force (Some []) vs); [reflexivity|]. rewrite pushes_grouped; [reflexivity|intros ? _ []|exact hnl].
      - rewrite pushes_grouped; [destruct ks; reflexivity| |exact hnl]. intros m hm hin. destruct (hA m hin) as (s & e). apply (proj2 (proj2 (hvs m hm)) s e). }
    rewrite hp. destruct special_not_tag as (ht1 & ht2).
    assert (hfin : forall m, ~ TagName m -> (forall s, m <> "@" :: s) -> ~ In m (dkeys (A ++ grouped force vs))).
    { intros m h1 h2 hin. unfold dkeys in hin. rewrite map_app in hin. apply in_app_iff in hin. destruct hin as [hin|hin]; [destruct (hA m hin) as (s & e); exact (h2 s e)|].
      revert hin. apply grouped_not_special; assumption. }
    assert (hc : forall s, cdata_key <> "@" :: s) by discriminate. assert (htk : forall s, tail_key <> "@" :: s) by discriminate.
    unfold st', pend1, A in *. clear hp hA item0 n1 n2. destruct attrs as [|a attrs]; [destruct ks as [|k ks]|].
    - rewrite end_none. reflexivity.
    - cbn [app]. rewrite end_some; [|apply (hfin cdata_key ht1 hc)|apply (hfin tail_key ht2 htk)]. unfold finish. reflexivity.
    - assert (ne : attr_part (a :: attrs) all <> []) by discriminate. destruct (attr_part (a :: attrs) all) as [|x l] eqn:E; [congruence|].
      rewrite end_some; [|apply (hfin cdata_key ht1 hc)|apply (hfin tail_key ht2 htk)]. rewrite <- E. unfold finish, attr_part. rewrite <- !app_assoc.
      cbn [shown]. destruct all; reflexivity.
  Qed.
End Run.

(** * Writing *)
Section Prefixed.
  Variables prefixes declared : dict str str.
  Hypothesis hag : Agree prefixes declared.
  Notation EK := (ElementKey prefixes declared).
  Notation AK := (AttributeKey prefixes).
  Notation nm := (prefixed prefixes).
  (** the name of an attribute *)
  Definition am (k : str) : str := tl (nm ("@" :: k)).

  Lemma unmarked_strip u : Unmarked u -> strip ["@"] u = u /\ strip ["@"] ("@" :: u) = u.
  Proof.
    intros (h1 & h2). assert (e : strip ["@"] u = u).
    { unfold strip. rewrite (lstrip_fix ["@"] u).
      - rewrite lstrip_fix; [apply rev_involutive|]. intros x r e i. destruct i as [<-|[]]. apply (h2 (rev r)).
        apply (f_equal (@rev _)) in e. rewrite rev_involutive in e. exact e.
      - intros x r e i. destruct i as [<-|[]]. exact (h1 r e). }
    split; [exact e|]. rewrite <- e at 2. unfold strip. reflexivity.
  Qed.
  Lemma nm_none l : ~ In ":" l -> nm l = l.
  Proof. intros h. unfold prefixed. rewrite rcut_none by exact h. destruct prefixes; reflexivity. Qed.
  Lemma am_none l : ~ In ":" l -> am l = l.
  Proof. intros h. unfold am. rewrite nm_none; [reflexivity|]. intros [e|i]; [discriminate|contradiction]. Qed.
  Lemma nm_in u l p : ~ In ":" l -> Unmarked u -> dget u prefixes = Some p -> nm (u ++ ":" :: l) = match p with [] => l | _ => p ++ ":" :: l end.
  Proof.
    intros hl hu hp. unfold prefixed. rewrite rcut_app by exact hl. rewrite (proj1 (unmarked_strip u hu)), hp. destruct prefixes; [discriminate|].
    destruct p; [reflexivity|]. destruct u as [|c u]; [reflexivity|]. unfold is_attr. rewrite (proj2 (beq_false _ c "@")); [reflexivity|]. intros ->. exact (proj1 hu u eq_refl).
  Qed.
  Lemma am_in u l p : ~ In ":" l -> Unmarked u -> dget u prefixes = Some p -> p <> [] -> am (u ++ ":" :: l) = p ++ ":" :: l.
  Proof.
    intros hl hu hp ne. unfold am, prefixed. change ("@" :: u ++ ":" :: l) with (("@" :: u) ++ ":" :: l). rewrite rcut_app by exact hl.
    rewrite (proj2 (unmarked_strip u hu)), hp. destruct prefixes; [discriminate|]. destruct p; [congruence|reflexivity].
  Qed.

  (** what a reader knows inside the root *)
  Variable sc : scope.
  Hypothesis hsc : forall p u, dget p declared = Some u -> dget p sc = Some u.
  Hypothesis hsc0 : dget [] declared = None -> dget [] sc = None.

  Lemma prefix_ok u p : dget u prefixes = Some p -> dget p sc = Some u /\ u <> [] /\ ~ In ":" p /\ p <> chars "xmlns".
  Proof.
    intros h. destruct hag as (_ & _ & hd & hp). assert (e := hp u p h). destruct (hd (p, u) (dget_In _ _ _ e)) as ((o1 & _ & o3 & _) & o5). cbn [fst snd] in *.
    split; [apply hsc; exact e|]. split; [exact o5|]. split; assumption.
  Qed.
  Lemma element_back k : EK k -> element_name ":" sc (nm k) = Some k.
  Proof.
    intros [l hl ht hn|u l p hl hu ht hp]; unfold element_name.
    - rewrite nm_none by apply hl. rewrite qname_plain by exact hl. rewrite hsc0 by exact hn. reflexivity.
    - rewrite (nm_in u l p (proj2 hl) hu hp). destruct (prefix_ok u p hp) as (e & ne & hc & _). destruct p as [|c p].
      + rewrite qname_plain by exact hl. rewrite e. destruct u; [congruence|reflexivity].
      + rewrite qname_prefix by (exact hl || (split; [discriminate|exact hc])). rewrite e. destruct u; [congruence|reflexivity].
  Qed.
  Lemma attribute_back k : AK k -> attribute_name ":" sc (am k) = Some k /\ declares (am k) = None.
  Proof.
    intros [l hl ht|u l p hl hu hp hne].
    - rewrite am_none by apply hl. unfold attribute_name, declares. rewrite qname_plain by exact hl. rewrite (proj2 (beq_false _ l (chars "xmlns")) ht). split; reflexivity.
    - rewrite (am_in u l p (proj2 hl) hu hp hne). destruct (prefix_ok u p hp) as (e & ne & hc & hx). unfold attribute_name, declares.
      rewrite qname_prefix by (exact hl || (split; assumption)). rewrite (proj2 (beq_false _ p (chars "xmlns")) hx). destruct p as [|c p]; [congruence|].
      rewrite e. split; reflexivity.
  Qed.
  Lemma am_inj k k' : AK k -> AK k' -> am k = am k' -> k = k'.
  Proof. intros h h' e. assert (a := proj1 (attribute_back k h)). assert (b := proj1 (attribute_back k' h')). rewrite e in a. congruence. Qed.

  Definition ren_attrs (a : dict str str) : dict str str := map (fun kv => (am (fst kv), snd kv)) a.
  Definition ren (e : event) : event :=
    match e with Start n a => Start (nm n) (ren_attrs a) | End n => End (nm n) | Chars s => Chars s end.
  Definition inj (e : event) : nev := match e with Start n a => NStart n a | End n => NEnd n | Chars s => NChars s end.
  (** whole elements and texts *)
  Inductive Bal : list event -> Prop :=
  | bal_nil : Bal []
  | bal_chars s evs : Bal evs -> Bal (Chars s :: evs)
  | bal_elt n a evs evs' : EK n -> (forall k v, In (k, v) a -> AK k) -> dwf a -> Bal evs -> Bal evs' -> Bal (Start n a :: evs ++ End n :: evs').
  Lemma bal_app l l' : Bal l -> Bal l' -> Bal (l ++ l').
  Proof.
    intros h h'. induction h as [|s evs h IH|n a evs evs' hn ha hd h1 IH1 h2 IH2]; [exact h'|cbn [app]; constructor; assumption|].
    cbn [app]. rewrite <- app_assoc. cbn [app]. constructor; assumption.
  Qed.
  Lemma distinct_nodup (l : list str) : NoDup l -> distinct l = true.
  Proof. induction 1 as [|x l n h IH]; [reflexivity|]. cbn [distinct]. rewrite IH. rewrite (proj2 (mem_not_In _ x l) n). reflexivity. Qed.
  Lemma declare_none a s : (forall k v, In (k, v) a -> AK k) -> declare (ren_attrs a) s = Some (s, []).
  Proof.
    induction a as [|[k v] a IH]; intros h; [reflexivity|]. cbn [ren_attrs map declare fst snd]. rewrite (proj2 (attribute_back k (h k v (or_introl eq_refl)))).
    apply IH. intros k' v' i. apply (h k' v'). right. exact i.
  Qed.
  Lemma attributes_back a rest l : (forall k v, In (k, v) a -> AK k) -> attributes ":" rest sc = Some l -> attributes ":" (ren_attrs a ++ rest) sc = Some (a ++ l).
  Proof.
    induction a as [|[k v] a IH]; intros h e; [exact e|]. cbn [ren_attrs map app attributes fst snd]. destruct (attribute_back k (h k v (or_introl eq_refl))) as (e1 & e2).
    rewrite e1, e2. fold (ren_attrs a). rewrite IH; [reflexivity| |exact e]. intros k' v' i. apply (h k' v'). right. exact i.
  Qed.
  Lemma scan_bal l : Bal l -> forall stack rest,
    scan ":" sc stack (map ren l ++ rest) = match scan ":" sc stack rest with Some r => Some (map inj l ++ r) | None => None end.
  Proof.
    induction 1 as [|s evs h IH|n a evs evs' hn ha hd h1 IH1 h2 IH2]; intros stack rest.
    - cbn [map app]. destruct (scan _ _ _ _); reflexivity.
    - cbn [map app ren scan]. rewrite IH. destruct (scan _ _ _ _); reflexivity.
    - cbn [map app ren scan]. rewrite (declare_none a sc ha), (element_back n hn). rewrite <- (app_nil_r (ren_attrs a)). rewrite (attributes_back a [] [] ha eq_refl), app_nil_r.
      rewrite (distinct_nodup (map fst a) hd). rewrite !map_app. rewrite <- !app_assoc. rewrite IH1. cbn [map app ren scan]. rewrite IH2.
      destruct (scan ":" sc stack rest); [|reflexivity]. cbn [inj map app]. rewrite <- ?app_assoc. reflexivity.
  Qed.

  (** ** The events of both ways of writing *)
  Variable pretty : bool.
  Variables newl indent : str.
  Variable repr : xval -> str.
  Notation emit1 := (emit_one pretty newl indent repr).
  Notation emitn := (emit_ns pretty newl indent repr prefixes).
  Notation elt := (element pretty newl indent).
  Definition Both (a b : res (list event)) : Prop := match a with Ok evs => b = Ok (map ren evs) /\ Bal evs | Err e => b = Err e end.
  Lemma bal_map_chars l : Bal (map Chars l).
  Proof. induction l; cbn [map]; constructor; assumption. Qed.
  Lemma text_chars v t : text_events v = Ok t -> exists l, t = map Chars l.
  Proof.
    destruct v as [[|b|s|s|l|l]|]; cbn; intros e; try discriminate e; try (injection e as <-; exists []; reflexivity).
    - destruct b; [discriminate|]. injection e as <-. exists []. reflexivity.
    - injection e as <-. exists [s]. reflexivity.
    - destruct l; [|discriminate]. injection e as <-. exists []. reflexivity.
    - destruct l; [|discriminate]. injection e as <-. exists []. reflexivity.
  Qed.
  Lemma ren_chars l : map ren (map Chars l) = map Chars l.
  Proof. induction l as [|s l IH]; [reflexivity|]. cbn [map ren]. rewrite IH. reflexivity. Qed.
  Lemma if_chars (b : bool) s : exists l, (if b then [Chars s] else []) = map Chars l.
  Proof. destruct b; [exists [s]|exists []]; reflexivity. Qed.
  Lemma element_both depth key attrs text tail hc kids kids' : EK key -> (forall k v, In (k, v) attrs -> AK k) -> dwf attrs -> Both kids kids' ->
    Both (elt depth key attrs text tail hc kids) (elt depth (nm key) (ren_attrs attrs) text tail hc kids').
  Proof.
    intros hk ha hd hb. unfold element. destruct (text_events text) as [t|e] eqn:et; [|reflexivity]. cbn [rbind].
    destruct kids as [ks|e]; [|cbn [Both] in hb; subst kids'; reflexivity]. destruct hb as (-> & hb). cbn [rbind].
    destruct (text_events tail) as [tl|e] eqn:etl; [|reflexivity]. cbn [rbind Both].
    apply text_chars in et. apply text_chars in etl. destruct et as (lt & ->), etl as (ltl & ->).
    destruct (if_chars pretty (repeat_text depth indent)) as (l1 & ->), (if_chars (pretty && hc) newl) as (l2 & ->), (if_chars (pretty && hc) (repeat_text depth indent)) as (l3 & ->),
      (if_chars (pretty && negb (Nat.eqb depth 0)) newl) as (l4 & ->).
    split.
    - rewrite !map_app, !ren_chars. reflexivity.
    - apply bal_app; [apply bal_map_chars|]. cbn [app].
      replace (map Chars l2 ++ map Chars lt ++ ks ++ map Chars l3 ++ map Chars ltl ++ End key :: map Chars l4) with ((map Chars l2 ++ map Chars lt ++ ks ++ map Chars l3 ++ map Chars ltl) ++ End key :: map Chars l4)
        by (rewrite <- !app_assoc; reflexivity).
      constructor; [assumption..| |apply bal_map_chars]. repeat apply bal_app; try apply bal_map_chars. exact hb.
  Qed.
  Lemma ren_dset acc k v : AK k -> (forall k' v', In (k', v') acc -> AK k') -> dset (am k) v (ren_attrs acc) = ren_attrs (dset k v acc).
  Proof.
    intros hk. induction acc as [|[k' v'] acc IH]; intros h; [reflexivity|]. cbn [ren_attrs map dset fst snd].
    destruct (eq_dec (am k) (am k')) as [e|ne]; destruct (eq_dec k k') as [e'|ne'].
    - subst. reflexivity.
    - exfalso. apply ne'. apply am_inj; [exact hk|apply (h k' v'); left; reflexivity|exact e].
    - subst. congruence.
    - cbn [map fst snd]. f_equal. apply IH. intros a b i. apply (h a b). right. exact i.
  Qed.
  Lemma dset_In_inv (k : str) (v : str) acc k' v' : In (k', v') (dset k v acc) -> k' = k \/ In (k', v') acc.
  Proof.
    induction acc as [|[a b] acc IH]; cbn [dset].
    - intros [e|[]]. left. congruence.
    - destruct (eq_dec k a) as [->|ne]; intros [e|i].
      + left. congruence.
      + right. right. exact i.
      + right. left. exact e.
      + destruct (IH i) as [h|h]; [left; exact h|right; right; exact h].
  Qed.
  Lemma attr_not_xmlns a : AK a -> nm ("@" :: a) <> chars "@xmlns".
  Proof.
    intros h e. assert (e2 : am a = chars "xmlns") by (unfold am; rewrite e; reflexivity). destruct (attribute_back a h) as (_ & hd). rewrite e2 in hd. vm_compute in hd. discriminate.
  Qed.
  Definition key_kind (P : xval -> Prop) (k : str) (v : xval) : Prop :=
    k = chars "#text" \/ k = chars "#tail" \/ (exists a, k = "@" :: a /\ AK a) \/ (EK k /\ P v).
  Lemma ek_tag k : EK k -> TagName k.
  Proof. intros []; assumption. Qed.
  Lemma attrs_both P l : (forall k v, In (k, v) l -> key_kind P k v) -> forall acc, dwf acc -> (forall k v, In (k, v) acc -> AK k) ->
    attrs_ns repr prefixes l (ren_attrs acc) = ren_attrs (attrs_of repr l acc) /\ dwf (attrs_of repr l acc) /\ (forall k v, In (k, v) (attrs_of repr l acc) -> AK k).
  Proof.
    induction l as [|[k v] l IH]; intros h acc hw ha; [split; [reflexivity|]; split; assumption|].
    assert (hl : forall k v, In (k, v) l -> key_kind P k v) by (intros; apply h; right; assumption).
    cbn [attrs_ns attrs_of]. destruct (h k v (or_introl eq_refl)) as [-> |[-> |[(a & -> & hak)|(he & _)]]].
    - cbn. apply IH; assumption.
    - cbn. apply IH; assumption.
    - change (beq ("@" :: a) cdata_key || beq ("@" :: a) tail_key || negb (is_attr ("@" :: a))) with false. cbn iota.
      assert (ne := attr_not_xmlns a hak). assert (ne2 : "@" :: a <> chars "@xmlns").
      { intros e. destruct hak as [x hx hn|u x p hx hu hp hn].
        - apply hn. exact (f_equal (@tl ascii) e).
        - assert (i : In ":" (chars "@xmlns")) by (rewrite <- e; right; apply in_or_app; right; left; reflexivity). vm_compute in i. intuition discriminate. }
      assert (go : attrs_ns repr prefixes l (dset (tl (nm ("@" :: a))) (attr_text repr v) (ren_attrs acc)) = ren_attrs (attrs_of repr l (dset (tl ("@" :: a)) (attr_text repr v) acc)) /\
                   dwf (attrs_of repr l (dset (tl ("@" :: a)) (attr_text repr v) acc)) /\ (forall k v0, In (k, v0) (attrs_of repr l (dset (tl ("@" :: a)) (attr_text repr v) acc)) -> AK k)).
      { fold (am a). cbn [tl]. rewrite ren_dset by assumption. apply IH; [exact hl|apply dwf_dset; exact hw|]. intros k v' i. apply dset_In_inv in i. destruct i as [->|i]; [exact hak|exact (ha k v' i)]. }
      destruct v; try exact go. rewrite (proj2 (beq_false _ _ _) ne), (proj2 (beq_false _ _ _) ne2). exact go.
    - destruct (tag_is_child k (ek_tag k he)) as (_ & e). rewrite e. cbn [negb]. rewrite !orb_true_r. apply IH; assumption.
  Qed.
  Definition xval_ind' (P : xval -> Prop) (h1 : P XNone) (h2 : forall b, P (XBool b)) (h3 : forall s, P (XStr s)) (h4 : forall s, P (XAtom s))
    (h5 : forall l, (forall k v, In (k, v) l -> P v) -> P (XDict l)) (h6 : forall l, (forall v, In v l -> P v) -> P (XList l)) : forall v, P v :=
    fix go v := match v with
    | XNone => h1 | XBool b => h2 b | XStr s => h3 s | XAtom s => h4 s
    | XDict l => h5 l ((fix all (l : dict str xval) : forall k v, In (k, v) l -> P v :=
        match l with
        | [] => fun _ _ i => match i with end
        | y :: l' => fun k v i => match i with or_introl e => eq_ind (snd y) P (go (snd y)) v (f_equal snd e) | or_intror i' => all l' k v i' end
        end) l)
    | XList l => h6 l ((fix all (l : list xval) : forall v, In v l -> P v :=
        match l with
        | [] => fun _ i => match i with end
        | y :: l' => fun v i => match i with or_introl e => eq_ind y P (go y) v e | or_intror i' => all l' v i' end
        end) l)
    end.
  Definition emitn_each (depth : nat) (k : str) : list xval -> res (list event) :=
    fix each (xs : list xval) := match xs with [] => Ok [] | y :: xs' => do a <- emitn (S depth) k y; do b <- each xs'; Ok (a ++ b) end.
  Definition emitn_kids (depth : nat) : dict str xval -> res (list event) :=
    fix kids (l : dict str xval) :=
      match l with
      | [] => Ok []
      | (k, x) :: l' =>
          if is_child k then
            do a <- match x with XList xs => emitn_each depth k xs | _ => emitn (S depth) k x end; do b <- kids l'; Ok (a ++ b)
          else kids l'
      end.
  Lemma emitn_dict depth key l : emitn depth key (XDict l) =
    elt depth (nm key) (attrs_ns repr prefixes l []) (dget cdata_key l) (dget tail_key l) (existsb (fun kv => is_child (fst kv)) l) (emitn_kids depth l).
  Proof. reflexivity. Qed.
  Lemma both_app a a' b b' : Both a a' -> Both b b' -> Both (do x <- a; do y <- b; Ok (x ++ y)) (do x <- a'; do y <- b'; Ok (x ++ y)).
  Proof.
    intros h1 h2. destruct a as [x|e]; [|cbn in h1; subst a'; reflexivity]. destruct h1 as (-> & h1). cbn [rbind].
    destruct b as [y|e]; [|cbn in h2; subst b'; reflexivity]. destruct h2 as (-> & h2). cbn [rbind Both]. split; [rewrite map_app; reflexivity|apply bal_app; assumption].
  Qed.
  Definition Wr (v : xval) : Prop := forall depth key, EK key -> Both (emit1 depth key v) (emitn depth key v).
  Lemma kids_both depth l : (forall k v, In (k, v) l -> key_kind (fun v => match v with XList xs => forall x, In x xs -> Wr x | _ => Wr v end) k v) ->
    Both (emit_kids pretty newl indent repr depth l) (emitn_kids depth l).
  Proof.
    induction l as [|[k v] l IH]; intros h; [split; [reflexivity|constructor]|].
    assert (hl := IH (fun k v i => h k v (or_intror i))). cbn [emit_kids emitn_kids]. fold (emit_kids pretty newl indent repr depth) (emitn_kids depth).
    destruct (h k v (or_introl eq_refl)) as [-> |[-> |[(a & -> & hak)|(he & hv)]]]; try exact hl.
    rewrite (proj1 (tag_is_child k (ek_tag k he))). apply both_app; [|exact hl].
    destruct v as [| | | | |xs]; try (apply hv; exact he). clear - hv he. induction xs as [|x xs IH]; [split; [reflexivity|constructor]|].
    cbn [emit_each emitn_each]. apply both_app; [apply hv; [left; reflexivity|exact he]|]. apply IH. intros y i. apply hv. right. exact i.
  Qed.
  Lemma emit_both v : ValueKeys prefixes declared v -> (match v with XList xs => forall x, In x xs -> Wr x | _ => Wr v end) /\ Wr v.
  Proof.
    assert (lf : forall depth key text, EK key -> Both (elt depth key [] text None false (Ok [])) (elt depth (nm key) [] text None false (Ok []))).
    { intros depth key text hk. apply (element_both depth key [] text None false (Ok []) (Ok []) hk); [intros ? ? []|apply dwf_nil|split; [reflexivity|constructor]]. }
    induction v as [|b|s|s|l IH|l IH] using xval_ind'; intros hv.
    1-4: (assert (w : forall v', Wr v' -> Wr v' /\ Wr v') by (intros; split; assumption)); apply w; intros depth key hk; cbn [emit_one emit_ns]; apply lf; exact hk.
    - assert (w : Wr (XDict l)); [|split; exact w]. inversion hv as [| | | | |l' hkeys]; subst. intros depth key hk. rewrite emit_dict, emitn_dict.
      destruct (attrs_both (fun _ => True) l) with (acc := @nil (str * str)) as (e & wf & ak).
      { intros k v i. destruct (hkeys k v i) as [h|[h|[h|(h & _)]]]; [left; exact h|right; left; exact h|right; right; left; exact h|right; right; right; split; [exact h|exact I]]. }
      { apply dwf_nil. } { intros ? ? []. }
      change (attrs_ns repr prefixes l []) with (attrs_ns repr prefixes l (ren_attrs [])). rewrite e. apply element_both; [exact hk|exact ak|exact wf|].
      apply kids_both. intros k v i. destruct (hkeys k v i) as [h|[h|[h|(h & h')]]]; [left; exact h|right; left; exact h|right; right; left; exact h|right; right; right; split; [exact h|]].
      apply (IH k v i h').
    - inversion hv as [| | | |l' hx|]; subst. split; [intros x i; apply (IH x i (hx x i))|]. intros depth key hk. cbn [emit_one emit_ns]. apply lf. exact hk.
  Qed.
End Prefixed.

(** * Writing then reading *)
Section Back.
  Variables prefixes declared : dict str str.
  Hypothesis hag : Agree prefixes declared.
  Variable force : str -> bool.
  Notation EK := (ElementKey prefixes declared).
  Notation AK := (AttributeKey prefixes).
  Notation run := (fold_left (handle force)).
  Notation runn := (fold_left (handle_ns ":" None force)).
  Notation push := (push_data force).

  Lemma entries_plain (a : dict str str) : entries ":" None (map (fun kv => (fst kv, XStr (snd kv))) a) = attr_entries a.
  Proof.
    unfold entries, attr_entries. generalize (@nil (str * xval)) at 1 2. induction a as [|[k v] a IH]; intros acc; [reflexivity|]. cbn [map fold_left fst snd]. apply IH.
  Qed.
  Lemma run_inj l : forall s, runn (map inj l) {| n_st := s; n_decls := [] |} = {| n_st := run l s; n_decls := [] |}.
  Proof.
    induction l as [|e l IH]; intros s; [reflexivity|]. cbn [map fold_left]. rewrite <- IH. f_equal. destruct e as [n a|n|t]; [|reflexivity..].
    cbn [inj handle_ns handle n_st n_decls]. destruct (flush s) as [b it ds st] eqn:ef. cbn [p_item p_data p_stack].
    assert (e : with_decls (map (fun kv => (fst kv, XStr (snd kv))) a) [] = (map (fun kv => (fst kv, XStr (snd kv))) a, [])) by (destruct a; reflexivity).
    rewrite e, entries_plain. unfold start_element. reflexivity.
  Qed.
  (** whole elements push values under their names, whatever is there before *)
  Lemma bal_run l : Bal prefixes declared l -> forall b, exists b' P T, (forall kv, In kv P -> TagName (fst kv)) /\
    forall it ds st, run l {| p_buf := b; p_item := it; p_data := ds; p_stack := st |} = {| p_buf := b'; p_item := pushes force it P; p_data := ds ++ T; p_stack := st |}.
  Proof.
    induction 1 as [|s evs h IH|n a evs evs' hn ha hd h1 IH1 h2 IH2]; intros b.
    - exists b, [], []. split; [intros ? []|]. intros. rewrite app_nil_r. reflexivity.
    - destruct (IH (b ++ s)) as (b' & P & T & hP & hr). exists b', P, T. split; [exact hP|]. intros. cbn [fold_left handle p_buf p_item p_data p_stack]. apply hr.
    - destruct (IH1 []) as (b1 & P1 & T1 & _ & hr1). destruct (IH2 []) as (b2 & P2 & T2 & hP2 & hr2).
      set (v := match run (evs ++ [End n]) {| p_buf := []; p_item := match attr_entries a with [] => None | d => Some d end; p_data := []; p_stack := [(None, [])] |} with
                | {| p_item := Some [(_, XList [v])] |} => v | {| p_item := Some [(_, v)] |} => v | _ => XNone end).
      assert (ev : exists v, forall it ds st, end_element force n (flush {| p_buf := b1; p_item := pushes force (match attr_entries a with [] => None | d => Some d end) P1; p_data := T1; p_stack := (it, ds) :: st |}) =
        {| p_buf := []; p_item := Some (push it n v); p_data := ds; p_stack := st |}).
      { eexists. intros it ds st. rewrite flush_eq. unfold end_element. cbn [p_stack p_data p_item]. reflexivity. }
      clear v. destruct ev as (v & ev). exists b2, ((n, v) :: P2), (opt b ++ T2). split.
      + intros kv [<-|i]; [apply (ek_tag prefixes declared n hn)|apply hP2; exact i].
      + intros it ds st. cbn [fold_left handle]. rewrite flush_eq. unfold start_element. cbn [p_item p_data p_stack]. rewrite fold_left_app, hr1. cbn [fold_left handle app].
        rewrite ev, hr2. rewrite <- app_assoc. reflexivity.
  Qed.

  (** the entry of the declarations, whatever its value *)
  Variable X : xval.
  Definition put (d : dict str xval) : dict str xval := map (fun kv => if beq (fst kv) (chars "@xmlns") then (fst kv, X) else kv) d.
  Lemma put_get k d : k <> chars "@xmlns" -> dget k (put d) = dget k d.
  Proof.
    intros h. induction d as [|[a b] d IH]; [reflexivity|]. cbn [put map dget fst]. destruct (beq_spec _ a (chars "@xmlns")) as [->|ne].
    - destruct (eq_dec k (chars "@xmlns")); [contradiction|exact IH].
    - cbn [dget]. destruct (eq_dec k a); [reflexivity|exact IH].
  Qed.
  Lemma put_set k v d : k <> chars "@xmlns" -> dset k v (put d) = put (dset k v d).
  Proof.
    intros h. assert (hb : beq k (chars "@xmlns") = false) by (apply beq_false; exact h).
    induction d as [|[a b] d IH]; [cbn [put map dset fst]; rewrite hb; reflexivity|]. cbn [put map dset fst]. destruct (beq_spec _ a (chars "@xmlns")) as [->|ne].
    - cbn [dset]. destruct (eq_dec k (chars "@xmlns")); [contradiction|]. cbn [map fst]. rewrite beq_refl. f_equal. exact IH.
    - cbn [dset]. destruct (eq_dec k a) as [<-|ne2]; cbn [map fst].
      + rewrite hb. reflexivity.
      + rewrite (proj2 (beq_false _ a (chars "@xmlns")) ne). f_equal. exact IH.
  Qed.
  Lemma put_push k v d : k <> chars "@xmlns" -> push (Some (put d)) k v = put (push (Some d) k v).
  Proof. intros h. unfold push_data. rewrite put_get by exact h. destruct (dget k d) as [[]|]; apply put_set; exact h. Qed.
  Lemma tag_not_xmlns k : TagName k -> k <> chars "@xmlns".
  Proof. intros (_ & _ & h) ->. exact (h (chars "xmlns") eq_refl). Qed.
  Lemma put_pushes P : (forall kv, In kv P -> TagName (fst kv)) -> forall d, exists d', pushes force (Some d) P = Some d' /\ pushes force (Some (put d)) P = Some (put d').
  Proof.
    induction P as [|[k v] P IH]; intros h d; [exists d; split; reflexivity|]. unfold pushes in *. cbn [fold_left fst snd].
    rewrite put_push by (apply tag_not_xmlns; apply (h (k, v)); left; reflexivity). apply IH. intros kv i. apply h. right. exact i.
  Qed.
  Lemma put_end key b d T : exists D,
    end_element force key (flush {| p_buf := b; p_item := Some d; p_data := T; p_stack := [(None, [])] |}) = {| p_buf := []; p_item := Some (push None key (XDict D)); p_data := []; p_stack := [] |} /\
    end_element force key (flush {| p_buf := b; p_item := Some (put d); p_data := T; p_stack := [(None, [])] |}) = {| p_buf := []; p_item := Some (push None key (XDict (put D))); p_data := []; p_stack := [] |}.
  Proof.
    rewrite !flush_eq. unfold end_element. cbn [p_stack p_data p_item].
    assert (hc : cdata_key <> chars "@xmlns") by discriminate. assert (ht : tail_key <> chars "@xmlns") by discriminate.
    destruct (map (strip whitespace) (T ++ opt b)) as [|[|c1 t1] [|[|c2 t2] l]];
      (eexists; split; [reflexivity|]); rewrite ?(put_push cdata_key) by exact hc; rewrite ?(put_push tail_key) by exact ht; reflexivity.
  Qed.
  Lemma push_none_inj key v w : push None key v = push None key w -> v = w.
  Proof. unfold push_data. cbn [dget dset]. destruct (force key); intros e; injection e as e; exact e. Qed.
  Lemma put_absent d : ~ In (chars "@xmlns") (dkeys d) -> put d = d.
  Proof.
    intros h. unfold put. rewrite <- (map_id d) at 2. apply map_ext_in. intros kv i. destruct (beq_spec _ (fst kv) (chars "@xmlns")) as [e|]; [|reflexivity].
    exfalso. apply h. rewrite <- e. apply in_map. exact i.
  Qed.
End Back.

Section Declared.
  Variables prefixes declared : dict str str.
  Hypothesis hag : Agree prefixes declared.
  Notation AK := (AttributeKey prefixes).
  Definition decl_attrs : dict str str := map (fun d => (decl_key (fst d), snd d)) declared.
  Definition decl_value : dict str xval := map (fun d => (fst d, XStr (snd d))) declared.
  Definition root_scope : scope := fold_left (fun acc d => dset (fst d) (snd d) acc) declared start_scope.

  Lemma fold_scope (l : dict str str) : dwf l -> forall s p, dget p (fold_left (fun acc d => dset (fst d) (snd d) acc) l s) = match dget p l with Some u => Some u | None => dget p s end.
  Proof.
    induction l as [|[k u] l IH]; intros w s p; [reflexivity|]. inversion w as [|a b nin w']; subst. cbn [fold_left fst snd]. rewrite (IH w'). cbn [dget].
    destruct (eq_dec p k) as [->|ne].
    - destruct (dget k l) eqn:e; [apply dget_Some_key in e; contradiction|]. apply dget_dset_same.
    - destruct (dget p l); [reflexivity|]. apply dget_dset_other. congruence.
  Qed.
  Lemma root_scope_get p u : dget p declared = Some u -> dget p root_scope = Some u.
  Proof. intros e. unfold root_scope. rewrite fold_scope by apply hag. rewrite e. reflexivity. Qed.
  Lemma root_scope_none : dget [] declared = None -> dget [] root_scope = None.
  Proof. intros e. unfold root_scope. rewrite fold_scope by apply hag. rewrite e. reflexivity. Qed.
  Lemma declare_attrs a : (forall k v, In (k, v) a -> AK k) ->
    declare (ren_attrs prefixes a ++ decl_attrs) start_scope = Some (root_scope, map (fun d => NDecl (fst d) (snd d)) decl_value).
  Proof.
    intros h. assert (e : declare (ren_attrs prefixes a ++ decl_attrs) start_scope = declare decl_attrs start_scope).
    { induction a as [|[k v] a IH]; [reflexivity|]. cbn [ren_attrs map app declare fst snd].
      rewrite (proj2 (attribute_back prefixes declared hag root_scope root_scope_get k (h k v (or_introl eq_refl)))). apply IH. intros k' v' i. apply (h k' v'). right. exact i. }
    rewrite e. clear e h. unfold root_scope, decl_attrs, decl_value. destruct hag as (_ & _ & hd & _). clear hag. generalize start_scope.
    induction declared as [|[p u] l IH]; intros s; [reflexivity|]. destruct (hd (p, u) (or_introl eq_refl)) as ((o1 & o2 & o3 & o4) & o5). cbn [fst snd] in *.
    cbn [map declare fst snd fold_left]. rewrite declares_key by exact o1. unfold may_declare. rewrite (proj2 (beq_false _ p (chars "xml")) o2), (proj2 (beq_false _ p (chars "xmlns")) o3).
    cbn [negb andb]. destruct u as [|c u]; [congruence|]. rewrite IH; [reflexivity|]. intros d i. apply hd. right. exact i.
  Qed.
  Lemma attributes_decl s : attributes ":" decl_attrs s = Some [].
  Proof.
    unfold decl_attrs. destruct hag as (_ & _ & hd & _). clear hag. induction declared as [|[p u] l IH]; [reflexivity|]. destruct (hd (p, u) (or_introl eq_refl)) as ((o1 & _) & _).
    cbn [map attributes fst snd]. rewrite declares_key by exact o1. apply IH. intros d i. apply hd. right. exact i.
  Qed.
  Lemma xmlns_attrs_spec repr (a : dict str str) : (forall k v, In (k, v) a -> AK k) -> xmlns_attrs repr decl_value (ren_attrs prefixes a) = ren_attrs prefixes a ++ decl_attrs.
  Proof.
    intros h. assert (hx : forall d, In d declared -> ~ In (decl_key (fst d)) (dkeys (ren_attrs prefixes a))).
    { intros d i j. unfold dkeys, ren_attrs in j. rewrite map_map in j. cbn [fst] in j. apply in_map_iff in j. destruct j as ([k v] & e & j). cbn [fst] in e.
      assert (b := proj2 (attribute_back prefixes declared hag root_scope root_scope_get k (h k v j))). rewrite e in b.
      rewrite declares_key in b; [discriminate|]. destruct hag as (_ & _ & hd & _). apply (hd d i). }
    revert hx. generalize (ren_attrs prefixes a). clear h. destruct hag as (w & _). clear hag. unfold decl_value, decl_attrs.
    induction declared as [|[p u] l IH]; intros acc hx; [symmetry; apply app_nil_r|]. inversion w as [|x y nin w']; subst. cbn [map xmlns_attrs fst snd attr_text].
    replace (chars "xmlns" ++ match p with [] => [] | _ :: _ => ":" :: p end) with (decl_key p) by (destruct p; reflexivity).
    rewrite dset_new by (apply (hx (p, u)); left; reflexivity). rewrite IH; [rewrite <- app_assoc; reflexivity|exact w'|].
    intros d i j. unfold dkeys in j. rewrite map_app in j. apply in_app_iff in j. destruct j as [j|[j|[]]].
    - apply (hx d); [right; exact i|exact j].
    - cbn [fst] in j. apply decl_key_inj in j. apply nin. rewrite j. apply in_map. exact i.
  Qed.
  Lemma update_self (d : dict str xval) : dwf d -> update [] d = d.
  Proof.
    intros w. unfold update. assert (H : forall acc, (forall k, In k (dkeys d) -> ~ In k (dkeys acc)) -> fold_left (fun acc kv => dset (fst kv) (snd kv) acc) d acc = acc ++ d).
    { induction d as [|[k v] d IH]; intros acc h; [symmetry; apply app_nil_r|]. inversion w as [|x y nin w']; subst. cbn [fold_left fst snd].
      rewrite dset_new by (apply h; left; reflexivity). rewrite IH; [rewrite <- app_assoc; reflexivity|exact w'|].
      intros k' i j. unfold dkeys in j. rewrite map_app in j. apply in_app_iff in j. destruct j as [j|[j|[]]]; [apply (h k'); [right; exact i|exact j]|]. cbn [fst] in j. subst k'. contradiction. }
    apply H. intros ? _ [].
  Qed.
  Lemma attrs_ns_entries repr attrs rest : NoDup (map fst attrs) -> (forall k v, In (k, v) attrs -> AK k) ->
    attrs_ns repr prefixes (attribute_entries attrs ++ rest) [] = attrs_ns repr prefixes rest (ren_attrs prefixes attrs).
  Proof.
    intros nd h. change (@nil (str * str)) with (ren_attrs prefixes []). 
    assert (H : forall acc, (forall k v, In (k, v) acc -> AK k) -> (forall k, In k (map fst attrs) -> ~ In k (dkeys acc)) ->
      attrs_ns repr prefixes (attribute_entries attrs ++ rest) (ren_attrs prefixes acc) = attrs_ns repr prefixes rest (ren_attrs prefixes (acc ++ attrs))).
    { induction attrs as [|[k v] attrs IH]; intros acc ha hf; [rewrite app_nil_r; reflexivity|]. inversion nd as [|x y nin nd']; subst.
      change (attribute_entries ((k, v) :: attrs) ++ rest) with (("@" :: k, XStr v) :: attribute_entries attrs ++ rest). cbn [attrs_ns].
      change (beq ("@" :: k) cdata_key || beq ("@" :: k) tail_key || negb (is_attr ("@" :: k))) with false. cbn iota. fold (am prefixes k). cbn [attr_text].
      rewrite (ren_dset prefixes declared hag root_scope root_scope_get acc k v (h k v (or_introl eq_refl)) ha). rewrite dset_new by (apply hf; left; reflexivity).
      rewrite IH; [rewrite <- app_assoc; reflexivity|exact nd'|intros a b i; apply (h a b); right; exact i| |].
      - intros a b i. apply in_app_iff in i. destruct i as [i|[i|[]]]; [exact (ha a b i)|]. injection i as <- <-. apply (h k v). left. reflexivity.
      - intros a i j. unfold dkeys in j. rewrite map_app in j. apply in_app_iff in j. destruct j as [j|[j|[]]]; [apply (hf a); [right; exact i|exact j]|]. cbn [fst] in j. subst a. contradiction. }
    apply H; [intros ? ? []|intros ? _ []].
  Qed.
  Lemma attrs_ns_skip repr l acc : (forall kv, In kv l -> beq (fst kv) cdata_key || beq (fst kv) tail_key || negb (is_attr (fst kv)) = true) -> attrs_ns repr prefixes l acc = acc.
  Proof.
    induction l as [|[k v] l IH]; intros h; [reflexivity|]. cbn [attrs_ns]. assert (e := h (k, v) (or_introl eq_refl)). cbn [fst] in e. rewrite e.
    apply IH. intros kv i. apply h. right. exact i.
  Qed.
End Declared.

Section Trip.
  Variables prefixes declared : dict str str.
  Hypothesis hag : Agree prefixes declared.
  Variable pretty : bool.
  Variables newl indent : str.
  Variable repr : xval -> str.
  Variable force : str -> bool.
  Hypothesis hnewl : Blank newl.
  Hypothesis hindent : Blank indent.
  Hypothesis hft : force (chars "#text") = false.
  Hypothesis hfl : force (chars "#tail") = false.
  Notation EK := (ElementKey prefixes declared).
  Notation AK := (AttributeKey prefixes).
  Notation run := (fold_left (handle force)).
  Notation runn := (fold_left (handle_ns ":" None force)).
  Notation sc := (root_scope declared).
  Notation hget := (root_scope_get prefixes declared hag).
  Notation hnone := (root_scope_none prefixes declared hag).

  Lemma one_keys k vs : (forall v, In v vs -> ValueKeys prefixes declared v) -> ValueKeys prefixes declared (Xml_Spec.one force k vs).
  Proof. intros h. unfold Xml_Spec.one. destruct vs as [|v [|w vs]]; [|destruct (force k)|]; try (constructor; exact h). apply h. left. reflexivity. Qed.
  Lemma text_keys key t k v : key = chars "#text" \/ key = chars "#tail" -> In (k, v) (text_entry force key t) -> k = chars "#text" \/ k = chars "#tail".
  Proof. intros h i. unfold text_entry in i. destruct t as [[|c t]|]; [destruct i| |destruct i]. destruct i as [e|[]]. injection e as <- _. exact h. Qed.
  (** children and texts *)
  Definition rest (kids : list (str * list elem)) (text tail : str) : dict str xval :=
    map (fun k => (fst k, Xml_Spec.one force (fst k) (map (form force) (snd k)))) kids ++ text_entry force (chars "#text") (Some text) ++ text_entry force (chars "#tail") (Some tail).
  Lemma rest_In kids text tail k v : In (k, v) (rest kids text tail) ->
    (k = chars "#text" \/ k = chars "#tail") \/ exists es, In (k, es) kids /\ v = Xml_Spec.one force k (map (form force) es).
  Proof.
    intros i. unfold rest in i. apply in_app_iff in i. destruct i as [i|i].
    - right. apply in_map_iff in i. destruct i as ([k' es] & e & i). cbn [fst snd] in e. injection e as <- <-. exists es. split; [exact i|reflexivity].
    - left. apply in_app_iff in i. destruct i as [i|i]; eapply text_keys; [left; reflexivity|exact i|right; reflexivity|exact i].
  Qed.
  Lemma form_keys e : KeysOk prefixes declared e -> ValueKeys prefixes declared (form force e).
  Proof.
    induction e as [s|attrs kids text tail IH] using elem_rect'; intros h; [constructor|]. inversion h as [|a k t l ha hk]; subst. cbn [form]. constructor. intros k v i.
    apply in_app_iff in i. destruct i as [i|i].
    - right. right. left. unfold attribute_entries in i. apply in_map_iff in i. destruct i as ([a b] & e & i). injection e as <- _. exists a. split; [reflexivity|exact (ha a b i)].
    - apply rest_In in i. destruct i as [[-> | ->]|(es & i & ->)]; [left; reflexivity|right; left; reflexivity|]. right. right. right. destruct (hk k es i) as (h1 & h2).
      split; [exact h1|]. apply one_keys. intros v j. apply in_map_iff in j. destruct j as (e & <- & j). apply (IH k es e i j). apply h2. exact j.
  Qed.
  Lemma emitn_skip depth a b : (forall kv, In kv a -> is_child (fst kv) = false) -> emitn_kids prefixes pretty newl indent repr depth (a ++ b) = emitn_kids prefixes pretty newl indent repr depth b.
  Proof.
    induction a as [|[k v] a IH]; intros h; [reflexivity|]. cbn [app emitn_kids]. rewrite (h (k, v) (or_introl eq_refl) : is_child k = false). apply IH. intros kv i. apply h. right. exact i.
  Qed.
  Lemma ak_not_xmlns k : AK k -> k <> chars "xmlns".
  Proof.
    intros [l hl hn|u l p hl hu hp hn]; [exact hn|]. intros e. assert (i : In ":" (chars "xmlns")) by (rewrite <- e; apply in_or_app; right; left; reflexivity). vm_compute in i. intuition discriminate.
  Qed.
  Lemma declared_some : declared <> [].
  Proof.
    destruct hag as (_ & np & _ & hp). destruct prefixes as [|[u p] l]; [congruence|]. intros e. assert (h := hp u p). cbn [dget] in h. destruct (eq_dec u u); [|congruence].
    specialize (h eq_refl). rewrite e in h. discriminate.
  Qed.
  Lemma dget_mid {V} k (a : dict str V) x b : k <> fst x -> dget k (a ++ x :: b) = dget k (a ++ b).
  Proof.
    intros ne. destruct x as [k' v]. induction a as [|[c d] a IH]; cbn [app dget fst] in *; [destruct (eq_dec k k'); congruence|]. destruct (eq_dec k c); [reflexivity|exact IH].
  Qed.
  Lemma round_trip key attrs kids text tail : EK key -> attrs <> [] -> ElemOk pretty (Elt attrs kids text tail) -> KeysOk prefixes declared (Elt attrs kids text tail) ->
    exists evs, emit_ns pretty newl indent repr prefixes 0 key (declaring force declared attrs kids text tail) = Ok evs /\
      parse_ns ":" None force evs = Some (Some [(key, Xml_Spec.one force key [declaring force declared attrs kids text tail])]).
  Proof.
    intros hk ane ok keys. inversion keys as [|a' k' t' l' ha hkids]; subst. inversion ok as [|a' k' t' l' nda ndk _ hes ht hl htl]; subst.
    set (X := XDict (decl_value declared)). set (R := rest kids text tail).
    set (L := attribute_entries attrs ++ (chars "@xmlns", X) :: R). set (L0 := attribute_entries attrs ++ (chars "@xmlns", XStr []) :: R).
    assert (eL : declaring force declared attrs kids text tail = XDict L) by reflexivity. rewrite eL.
    assert (eL0 : form force (Elt (attrs ++ [(chars "xmlns", [])]) kids text tail) = XDict L0).
    { cbn [form]. unfold attribute_entries. rewrite map_app. rewrite <- app_assoc. reflexivity. }
    assert (nx : forall k v, In (k, v) attrs -> k <> chars "xmlns") by (intros k v i; apply ak_not_xmlns; exact (ha k v i)).
    assert (ok0 : ElemOk pretty (Elt (attrs ++ [(chars "xmlns", [])]) kids text tail)).
    { constructor; try assumption.
      - rewrite map_app. apply NoDup_app_intro; [exact nda|repeat constructor; intros []|]. intros x i [<-|[]]. apply in_map_iff in i. destruct i as ([a b] & e & i). exact (nx a b i e).
      - left. destruct attrs; discriminate. }
    destruct (elem_effect pretty newl indent repr force hnewl hindent hft hfl _ ok0 0 key) as (evs0 & ev0 & run0). rewrite eL0 in ev0, run0.
    assert (hR : forall k v, In (k, v) R -> key_kind prefixes declared (ValueKeys prefixes declared) k v).
    { intros k v i. assert (fk := form_keys _ keys). cbn [form] in fk. inversion fk as [| | | | |l hkk]; subst. apply (hkk k v). apply in_or_app. right. exact i. }
    assert (hB : Both prefixes declared (emit_kids pretty newl indent repr 0 R) (emitn_kids prefixes pretty newl indent repr 0 R)).
    { apply (kids_both prefixes declared pretty newl indent repr). intros k v i. destruct (hR k v i) as [h|[h|[h|(h & h')]]]; [left; exact h|right; left; exact h|right; right; left; exact h|].
      right. right. right. split; [exact h|]. apply (emit_both prefixes declared hag sc hget pretty newl indent repr v h'). }
    assert (hat : forall kv, In kv (attribute_entries attrs) -> is_child (fst kv) = false).
    { intros kv i. unfold attribute_entries in i. apply in_map_iff in i. destruct i as ([a b] & <- & i). reflexivity. }
    rewrite emit_dict in ev0. unfold L0 in ev0.
    assert (hat2 : forall x kv, In kv (attribute_entries attrs ++ [(chars "@xmlns", x)]) -> is_child (fst kv) = false).
    { intros x kv i. apply in_app_iff in i. destruct i as [i|[<-|[]]]; [apply hat; exact i|reflexivity]. }
    assert (esh : forall x, attribute_entries attrs ++ (chars "@xmlns", x) :: R = (attribute_entries attrs ++ [(chars "@xmlns", x)]) ++ R) by (intros x; rewrite <- app_assoc; reflexivity).
    assert (ek0 : emit_kids pretty newl indent repr 0 (attribute_entries attrs ++ (chars "@xmlns", XStr []) :: R) = emit_kids pretty newl indent repr 0 R) by (rewrite esh; apply kids_app; apply hat2).
    assert (ekn : emitn_kids prefixes pretty newl indent repr 0 L = emitn_kids prefixes pretty newl indent repr 0 R) by (unfold L; rewrite esh; apply emitn_skip; apply hat2).
    assert (sk : forall kv, In kv R -> beq (fst kv) cdata_key || beq (fst kv) tail_key || negb (is_attr (fst kv)) = true).
    { intros [k v] i. destruct (rest_In _ _ _ _ _ i) as [[-> | ->]|(es & j & _)]; [reflexivity|reflexivity|]. cbn [fst]. destruct (hkids k es j) as (h & _).
      rewrite (proj2 (tag_is_child k (ek_tag prefixes declared k h))). apply orb_true_r. }
    assert (ea0 : attrs_of repr (attribute_entries attrs ++ (chars "@xmlns", XStr []) :: R) [] = attrs ++ [(chars "xmlns", [])]).
    { change (attribute_entries attrs ++ (chars "@xmlns", XStr []) :: R) with (attribute_entries attrs ++ attribute_entries [(chars "xmlns", [])] ++ R).
      rewrite app_assoc. replace (attribute_entries attrs ++ attribute_entries [(chars "xmlns", [])]) with (attribute_entries (attrs ++ [(chars "xmlns", [])])) by (unfold attribute_entries; apply map_app).
      inversion ok0; subst. rewrite attrs_of_entries; [|assumption|intros ? _ []]. apply attrs_of_skip. exact sk. }
    assert (ean : attrs_ns repr prefixes L [] = ren_attrs prefixes attrs ++ decl_attrs declared).
    { unfold L. rewrite (attrs_ns_entries prefixes declared hag) by assumption. cbn [attrs_ns]. change (beq (chars "@xmlns") cdata_key || beq (chars "@xmlns") tail_key || negb (is_attr (chars "@xmlns"))) with false. cbn iota.
      unfold X. assert (ep : prefixed prefixes (chars "@xmlns") = chars "@xmlns") by (apply (nm_none prefixes declared hag); vm_compute; intuition discriminate). rewrite ep, beq_refl.
      rewrite (xmlns_attrs_spec prefixes declared hag repr attrs ha). apply attrs_ns_skip. exact sk. }
    assert (eg : forall k x y, k <> chars "@xmlns" -> dget k (attribute_entries attrs ++ (chars "@xmlns", x) :: R) = dget k (attribute_entries attrs ++ (chars "@xmlns", y) :: R)) by (intros; rewrite !dget_mid by assumption; reflexivity).
    assert (ex : forall x, existsb (fun kv => is_child (fst kv)) (attribute_entries attrs ++ (chars "@xmlns", x) :: R) = existsb (fun kv => is_child (fst kv)) (attribute_entries attrs ++ (chars "@xmlns", XStr []) :: R)).
    { intros x. rewrite !existsb_app. reflexivity. }
    rewrite emitn_dict, ekn, ean. unfold L. rewrite ex, (eg cdata_key X (XStr [])), (eg tail_key X (XStr [])) by discriminate. rewrite ek0, ea0 in ev0.
    unfold element in *. destruct (text_events (dget cdata_key _)) as [t|er] eqn:et in *; [|discriminate ev0]. cbn [rbind] in *.
    destruct (emit_kids pretty newl indent repr 0 R) as [ks|er]; [|discriminate ev0]. destruct hB as (-> & bks). cbn [rbind] in *.
    destruct (text_events (dget tail_key _)) as [tl|er] eqn:etl in *; [|discriminate ev0]. cbn [rbind] in *. injection ev0 as ev0.
    set (hc := existsb _ _) in *. apply text_chars in et. apply text_chars in etl. destruct et as (lt & ->), etl as (ltl & ->).
    set (body := (if pretty && hc then [Chars newl] else []) ++ map Chars lt ++ ks ++ (if pretty && hc then [Chars (repeat_text 0 indent)] else []) ++ map Chars ltl).
    set (pre := if pretty then [Chars (repeat_text 0 indent)] else @nil event) in *.
    assert (bb : Bal prefixes declared body).
    { unfold body. destruct (if_chars (pretty && hc) newl) as (l2 & ->), (if_chars (pretty && hc) (repeat_text 0 indent)) as (l3 & ->). repeat apply bal_app; try apply bal_map_chars. exact bks. }
    assert (e0 : evs0 = pre ++ Start key (attrs ++ [(chars "xmlns", [])]) :: body ++ [End key]).
    { rewrite <- ev0. unfold body. destruct pretty; cbn [andb negb Nat.eqb app]; rewrite <- ?app_assoc; reflexivity. }
    eexists. split; [reflexivity|].
    assert (en : forall (n : str) (A : dict str str), pre ++ [Start n A] ++ (if pretty && hc then [Chars newl] else []) ++ map Chars lt ++ map (ren prefixes) ks ++ (if pretty && hc then [Chars (repeat_text 0 indent)] else []) ++
        map Chars ltl ++ [End n] ++ (if pretty && negb (Nat.eqb 0 0) then [Chars newl] else []) = pre ++ Start n A :: map (ren prefixes) body ++ [End n]).
    { intros n A. unfold body. rewrite !map_app, !ren_chars. destruct (if_chars (pretty && hc) newl) as (l2 & e2), (if_chars (pretty && hc) (repeat_text 0 indent)) as (l3 & e3). rewrite e2, e3, !ren_chars.
      cbn [Nat.eqb negb]. rewrite andb_false_r. rewrite <- !app_assoc. reflexivity. }
    rewrite en. clear en. unfold parse_ns.
    assert (esc : scan ":" start_scope [] (pre ++ Start (prefixed prefixes key) (ren_attrs prefixes attrs ++ decl_attrs declared) :: map (ren prefixes) body ++ [End (prefixed prefixes key)]) =
      Some (map inj pre ++ map (fun d => NDecl (fst d) (snd d)) (decl_value declared) ++ NStart key attrs :: map inj body ++ [NEnd key])).
    { assert (H : scan ":" start_scope [] (Start (prefixed prefixes key) (ren_attrs prefixes attrs ++ decl_attrs declared) :: map (ren prefixes) body ++ [End (prefixed prefixes key)]) =
        Some (map (fun d => NDecl (fst d) (snd d)) (decl_value declared) ++ NStart key attrs :: map inj body ++ [NEnd key])).
      { cbn [scan]. rewrite (declare_attrs prefixes declared hag attrs ha), (element_back prefixes declared hag sc hget hnone key hk).
        rewrite (attributes_back prefixes declared hag sc hget attrs _ [] ha (attributes_decl prefixes declared hag sc)), app_nil_r. rewrite (distinct_nodup (map fst attrs) nda).
        rewrite (scan_bal prefixes declared hag sc hget hnone body bb). cbn [scan]. reflexivity. }
      revert H. generalize (Start (prefixed prefixes key) (ren_attrs prefixes attrs ++ decl_attrs declared) :: map (ren prefixes) body ++ [End (prefixed prefixes key)]). intros l H.
      unfold pre. destruct pretty; cbn [app map inj scan]; rewrite H; reflexivity. }
    rewrite esc. do 2 f_equal. specialize (run0 [] None [] []). cbn [app] in run0.
    assert (epre : forall s, p_buf s = [] -> run pre s = s).
    { intros [b it ds st] eb. cbn [p_buf] in eb. subst b. unfold pre. destruct pretty; reflexivity. }
    rewrite e0 in run0. rewrite fold_left_app in run0. rewrite epre in run0 by reflexivity. cbn [fold_left handle] in run0. unfold start_element in run0. rewrite flush_eq in run0. cbn [opt app p_item p_data p_stack] in run0.
    inversion ok0 as [|a' k' t' l' nda0 _ _ _ _ _ _]; subst. rewrite attr_entries_spec in run0 by exact nda0.
    assert (eD0 : attribute_entries (attrs ++ [(chars "xmlns", [])]) = attribute_entries attrs ++ [(chars "@xmlns", XStr [])]) by (unfold attribute_entries; rewrite map_app; reflexivity).
    rewrite eD0 in run0. set (D0 := attribute_entries attrs ++ [(chars "@xmlns", XStr [])]) in *.
    assert (eDn : match D0 with [] => None | p :: l => Some (p :: l) end = Some D0) by (unfold D0; destruct (attribute_entries attrs); reflexivity). match type of run0 with context [{| p_buf := []; p_item := ?m; p_data := []; p_stack := [(None, [])] |}] => replace m with (@Some (dict str xval) D0) in run0 by (symmetry; exact eDn) end.
    rewrite fold_left_app in run0. destruct (bal_run prefixes declared force body bb []) as (b' & P & T & hP & hrun). rewrite hrun in run0. cbn [fold_left handle app] in run0.
    destruct (put_pushes force X P hP D0) as (d' & p1 & p2). rewrite p1 in run0. destruct (put_end force X key b' d' T) as (D & q1 & q2). rewrite q1 in run0.
    assert (eD : XDict D = XDict L0) by (apply (push_none_inj force key); exact (f_equal (fun s => match p_item s with Some d => d | None => [] end) run0)). injection eD as eD.
    assert (epn : forall s, p_buf (n_st s) = [] -> runn (map inj pre) s = s).
    { intros [[b it ds st] dl] eb. cbn [p_buf n_st] in eb. subst b. unfold pre. destruct pretty; reflexivity. }
    rewrite fold_left_app, epn by reflexivity. rewrite fold_left_app. set (s0 := {| n_st := _; n_decls := [] |}).
    destruct (run_decls ":" None force (decl_value declared) s0) as (r1 & r2). set (s1 := runn _ s0) in *. cbn [fold_left handle_ns]. rewrite r1, r2. unfold s0. cbn [n_st n_decls]. rewrite flush_eq. cbn [opt app p_item p_data p_stack].
    assert (wd : dwf (decl_value declared)).
    { unfold dwf, dkeys, decl_value. rewrite map_map. cbn [fst]. apply hag. }
    rewrite update_self by exact wd.
    assert (ed : decl_value declared <> []) by (unfold decl_value; assert (z := declared_some); destruct declared; [congruence|discriminate]).
    assert (ew : with_decls (map (fun kv => (fst kv, XStr (snd kv))) attrs) (decl_value declared) = (map (fun kv => (fst kv, XStr (snd kv))) attrs ++ [(chars "xmlns", X)], [])).
    { unfold with_decls. destruct attrs as [|[a v] attrs']; [congruence|]. cbn [map]. fold X. unfold X. destruct (decl_value declared) as [|dv0 dvs]; [congruence|]. rewrite dset_new; [reflexivity|].
      intros i. change ((fst (a, v), XStr (snd (a, v))) :: map (fun kv => (fst kv, XStr (snd kv))) attrs') with (map (fun kv : str * str => (fst kv, XStr (snd kv))) ((a, v) :: attrs')) in i.
      unfold dkeys in i. rewrite map_map in i. cbn [fst] in i. apply in_map_iff in i. destruct i as ([k' v'] & e & i). exact (nx k' v' i e). }
    rewrite ew. rewrite (entries_map ":" None).
    2:{ unfold build_name. rewrite map_app, map_map. cbn [map fst]. apply NoDup_app_intro; [exact nda|repeat constructor; intros []|]. intros x i [<-|[]]. apply in_map_iff in i. destruct i as ([a b] & e & i). exact (nx a b i e). }
    assert (ept : map (fun kv : str * xval => ("@" :: build_name ":" None (fst kv), snd kv)) (map (fun kv => (fst kv, XStr (snd kv))) attrs ++ [(chars "xmlns", X)]) = put X D0).
    { unfold D0, put. rewrite !map_app. cbn [map fst snd]. rewrite beq_refl. fold (put X (attribute_entries attrs)). rewrite map_map. cbn [fst snd build_name].
      rewrite put_absent; [reflexivity|]. intros i. unfold dkeys, attribute_entries in i. rewrite map_map in i. cbn [fst] in i. apply in_map_iff in i. destruct i as ([a b] & e & i). injection e as e. exact (nx a b i e). }
    rewrite ept. assert (eDp : match put X D0 with [] => None | p :: l => Some (p :: l) end = Some (put X D0)) by (unfold D0; destruct (attribute_entries attrs); reflexivity). match goal with |- context [{| p_buf := []; p_item := ?m; p_data := []; p_stack := [(None, [])] |}] => replace m with (@Some (dict str xval) (put X D0)) by (symmetry; exact eDp) end.
    rewrite fold_left_app, (run_inj force), hrun. cbn [fold_left handle_ns n_st build_name app]. rewrite p2, q2. cbn [p_item]. rewrite eD.
    assert (epL : put X L0 = L).
    { unfold L0, L, put. rewrite map_app. cbn [map fst]. rewrite beq_refl. fold (put X (attribute_entries attrs)) (put X R). rewrite !put_absent; [reflexivity| |].
      - intros i. unfold dkeys in i. apply in_map_iff in i. destruct i as ([k v] & e & i). cbn [fst] in e. subst k. destruct (rest_In _ _ _ _ _ i) as [[e|e]|(es & j & _)]; try discriminate.
        apply (tag_not_xmlns (chars "@xmlns")); [|reflexivity]. apply (ek_tag prefixes declared). apply (hkids _ es j).
      - intros i. unfold dkeys, attribute_entries in i. rewrite map_map in i. cbn [fst] in i. apply in_map_iff in i. destruct i as ([a b] & e & i). injection e as e. exact (nx a b i e). }
    rewrite epL. unfold push_data. cbn [dget dset Xml_Spec.one]. reflexivity.
  Qed.
End Trip.
