(** Listing namespaces (C98). *)
From Coq Require Import Sorted Permutation.
From Verif Require Import Base PyVal Str_Model Bracket_Model Ns_Model Ns_Spec Coll_Proofs Str_Proofs Ns_Proofs Op_Props Nl_Model Nl_Spec.
Local Open Scope char_scope. Local Open Scope list_scope.

(** ** sorting *)
Lemma put_name_perm x l : Permutation (x :: l) (put_name x l).
Proof.
  induction l as [|y l IH]; [reflexivity|]. cbn [put_name]. destruct (str_leb x y); [reflexivity|].
  rewrite perm_swap. apply perm_skip. exact IH.
Qed.
Lemma put_name_sorted x l : Sorted LexLe l -> Sorted LexLe (put_name x l).
Proof.
  induction l as [|y l IH]; intros h; cbn [put_name]; [repeat constructor|]. destruct (str_leb x y) eqn:e.
  - constructor; [exact h|]. constructor. apply str_leb_spec. exact e.
  - inversion h as [|? ? hs hd]; subst. constructor; [apply IH; exact hs|].
    assert (hyx : LexLe y x) by (destruct (str_leb_total x y) as [q|q]; [congruence | apply str_leb_spec; exact q]).
    destruct l as [|z l]; cbn [put_name]; [constructor; exact hyx|]. destruct (str_leb x z); constructor; [exact hyx | inversion hd; assumption].
Qed.
Lemma sort_names_perm l : Permutation l (sort_names l).
Proof. induction l as [|x l IH]; [reflexivity|]. cbn [sort_names fold_right]. rewrite <- put_name_perm. apply perm_skip. exact IH. Qed.
Lemma sort_names_sorted l : Sorted LexLe (sort_names l).
Proof. induction l as [|x l IH]; [constructor|]. apply put_name_sorted. exact IH. Qed.
Lemma sorted_strict l : Sorted LexLe l -> NoDup l -> Sorted Before l.
Proof.
  induction l as [|x l IH]; intros h nd; [constructor|]. inversion h; subst. inversion nd; subst. constructor; [apply IH; assumption|].
  destruct l as [|y l]; constructor. inversion H2; subst. split; [assumption|]. intros ->. apply H3. left. reflexivity.
Qed.

(** ** where a name leads *)
Lemma available_get docs : forall d n, dget n (fold_left (fun d (ud : str * pyval) => dset (uri_to_cname (fst ud)) (fst ud) d) docs d) =
  match find (fun ud => beq (uri_to_cname (fst ud)) n) (rev docs) with Some ud => Some (fst ud) | None => dget n d end.
Proof.
  induction docs as [|[u x] docs IH]; intros d n; [reflexivity|]. cbn [fold_left fst rev]. rewrite IH.
  assert (e : forall (l : list (str * pyval)) f a, find f (l ++ [a]) = match find f l with Some y => Some y | None => if f a then Some a else None end).
  { intros l f a. induction l as [|b l IHl]; [reflexivity|]. cbn [app find]. destruct (f b); [reflexivity | exact IHl]. }
  rewrite e. destruct (find _ (rev docs)); [reflexivity|]. cbn [fst]. rewrite dget_dset.
  destruct (eq_dec n (uri_to_cname u)) as [->|h]; [rewrite (beq_refl _ _); reflexivity|].
  rewrite (proj2 (beq_false _ (uri_to_cname u) n)) by congruence. reflexivity.
Qed.
Lemma find_last (docs : list (str * pyval)) n u :
  (exists d, find (fun ud => beq (uri_to_cname (fst ud)) n) (rev docs) = Some (u, d)) <->
  exists before doc after, docs = before ++ (u, doc) :: after /\ uri_to_cname u = n /\ forall v d, In (v, d) after -> uri_to_cname v <> n.
Proof.
  split.
  - intros (d & h). assert (e : exists a b, rev docs = a ++ (u, d) :: b /\ (forall x, In x a -> beq (uri_to_cname (fst x)) n = false) /\ beq (uri_to_cname u) n = true).
    { revert h. induction (rev docs) as [|x l IH]; [discriminate|]. cbn [find]. destruct (beq (uri_to_cname (fst x)) n) eqn:e.
      - intros h. injection h as ->. exists [], l. split; [reflexivity|]. split; [intros ? []|]. exact e.
      - intros h. destruct (IH h) as (a & b & -> & h1 & h2). exists (x :: a), b. split; [reflexivity|]. split; [|exact h2]. intros y [<-|iy]; [exact e | apply h1; exact iy]. }
    destruct e as (a & b & e1 & e2 & e3). exists (rev b), d, (rev a). split.
    + rewrite <- (rev_involutive docs), e1, rev_app_distr. cbn [rev]. rewrite <- app_assoc. reflexivity.
    + split; [apply beq_true in e3; exact e3|]. intros v x i. apply in_rev in i. specialize (e2 _ i). apply beq_false in e2. exact e2.
  - intros (before & doc & after & -> & e & h). rewrite rev_app_distr. cbn [rev]. rewrite <- app_assoc. exists doc.
    assert (k : forall a b : list (str * pyval), (forall x, In x a -> uri_to_cname (fst x) <> n) -> find (fun ud => beq (uri_to_cname (fst ud)) n) (a ++ b) = find (fun ud => beq (uri_to_cname (fst ud)) n) b).
    { intros a b ha. induction a as [|x a IH]; [reflexivity|]. cbn [app find]. rewrite (proj2 (beq_false _ _ _) (ha x (or_introl eq_refl))). apply IH. intros y i. apply ha. right. exact i. }
    rewrite k; [cbn [app find fst]; rewrite e, (beq_refl _ n); reflexivity|]. intros [v x] i. apply in_rev in i. apply h with x. exact i.
Qed.
Lemma parents_get ps n : dget n (chain_maps ps) = None <-> forall q, In q ps -> dget n q = None.
Proof.
  induction ps as [|p ps IH]; [split; [intros _ ? [] | reflexivity]|]. rewrite chain_maps_cons. destruct (dget n p) eqn:e.
  - split; [discriminate|]. intros h. rewrite (h p (or_introl eq_refl)) in e. discriminate e.
  - rewrite IH. split; [intros h q [<-|i]; [exact e | apply h; exact i] | intros h q i; apply h; right; exact i].
Qed.
Lemma parents_some ps n u : dget n (chain_maps ps) = Some u <-> exists before p after, ps = before ++ p :: after /\ (forall q, In q before -> dget n q = None) /\ dget n p = Some u.
Proof.
  split.
  - induction ps as [|p ps IH]; [discriminate|]. rewrite chain_maps_cons. destruct (dget n p) eqn:e; intros h.
    + injection h as ->. exists [], p, ps. split; [reflexivity|]. split; [intros ? [] | exact e].
    + destruct (IH h) as (b & q & a & -> & h1 & h2). exists (p :: b), q, a. split; [reflexivity|]. split; [|exact h2]. intros z [<-|i]; [exact e | apply h1; exact i].
  - intros (b & p & a & -> & h1 & h2). rewrite chain_maps_app. rewrite (proj2 (parents_get b n) h1), chain_maps_cons, h2. reflexivity.
Qed.
Lemma leads_get m n u : dget n (chain_maps [registry m; m_builder m; available_namespaces m]) = Some u <-> LeadsTo m n u.
Proof.
  rewrite chain_maps_cons. unfold registry. rewrite !chain_maps_cons. cbn [chain_maps dget]. unfold available_namespaces. rewrite available_get. split.
  - destruct (dget n (m_local m)) eqn:e1; [intros h; injection h as ->; apply leads_local; exact e1|].
    destruct (dget n (chain_maps (m_parents m))) eqn:e2.
    { intros h. injection h as ->. apply parents_some in e2. destruct e2 as (b & p & a & h1 & h2 & h3). exact (leads_parent m n u b p a e1 h1 h2 h3). }
    rewrite parents_get in e2. destruct (dget n (m_builder m)) eqn:e3; [intros h; injection h as ->; apply leads_builder; assumption|].
    destruct (find _ _) as [[v d]|] eqn:e4; [|cbn; discriminate]. intros h. injection h as ->.
    destruct (proj1 (find_last (m_docs m) n u) (ex_intro _ d e4)) as (b & x & a & h1 & h2 & h3). exact (leads_document m n u b x a e1 e2 e3 h1 h2 h3).
  - intros [h | b p a h h1 h2 h3 | h h1 h2 | b d a h h1 h2 h3 h4 h5].
    + rewrite h. reflexivity.
    + rewrite h. rewrite (proj2 (parents_some (m_parents m) n u)); [reflexivity|]. exists b, p, a. auto.
    + rewrite h, (proj2 (parents_get _ n) h1), h2. reflexivity.
    + rewrite h, (proj2 (parents_get _ n) h1), h2. destruct (proj2 (find_last (m_docs m) n u)) as (x & e); [exists b, d, a; auto|]. rewrite e. reflexivity.
Qed.

Definition maps_wf (m : mgr) : Prop := dwf (m_local m) /\ (forall p, In p (m_parents m) -> dwf p) /\ dwf (m_builder m).
Lemma available_wf docs : forall d, dwf d -> dwf (fold_left (fun d (ud : str * pyval) => dset (uri_to_cname (fst ud)) (fst ud) d) docs d).
Proof. induction docs as [|x docs IH]; intros d h; [exact h|]. apply IH. apply dwf_dset. exact h. Qed.
Lemma all_wf m : maps_wf m -> dwf (chain_maps [registry m; m_builder m; available_namespaces m]).
Proof.
  intros (h1 & h2 & h3). apply chain_maps_wf. repeat constructor; [|exact h3|apply available_wf; apply dwf_nil].
  apply chain_maps_wf. constructor; [exact h1|]. apply Forall_forall. exact h2.
Qed.
Lemma listing_keys (ns : dict str str) l : (forall k, In k l -> In k (dkeys ns)) ->
  map fst (flat_map (fun k => match dget k ns with Some u => [(k, u)] | None => [] end) l) = l.
Proof.
  induction l as [|k l IH]; intros h; [reflexivity|]. cbn [flat_map]. destruct (dget k ns) eqn:e.
  - cbn [app map fst]. rewrite IH; [reflexivity | intros x i; apply h; right; exact i].
  - exfalso. apply dget_None in e. apply e. apply h. left. reflexivity.
Qed.

(** * C98 *)
(** the listing holds exactly the names that lead somewhere, with where they lead; a text that is given keeps the names that contain it *)
Theorem namespaces_listed : forall m contains n u,
  In (n, u) (namespaces m contains) <-> LeadsTo m n u /\ (forall c, contains = Some c -> exists a b, n = a ++ c ++ b).
Proof.
  intros m contains n u. unfold namespaces. set (ns := chain_maps _). rewrite in_flat_map.
  assert (k : forall l, (exists x, In x (sort_names l) /\ In (n, u) (match dget x ns with Some v => [(x, v)] | None => [] end)) <-> In n l /\ dget n ns = Some u).
  { intros l. split.
    - intros (x & i & h). destruct (dget x ns) eqn:e; [|destruct h]. destruct h as [h|[]]. injection h as -> ->.
      split; [|exact e]. apply (Permutation_in _ (Permutation_sym (sort_names_perm l))). exact i.
    - intros (i & e). exists n. split; [apply (Permutation_in _ (sort_names_perm l)); exact i|]. rewrite e. left. reflexivity. }
  rewrite k, <- leads_get. fold ns. clear k.
  assert (kd : dget n ns = Some u -> In n (dkeys ns)) by (intros h; apply dget_Some_key in h; exact h).
  destruct contains as [[|c s]|].
  - split; [intros (_ & h); split; [exact h|]; intros q eq; injection eq as <-; exists [], n; reflexivity | intros (h & _); split; [apply kd|]; exact h].
  - rewrite filter_In, contains_sub_spec. split.
    + intros ((_ & h) & e). split; [exact e|]. intros q eq. injection eq as <-. exact h.
    + intros (e & h). split; [split; [apply kd; exact e | apply h; reflexivity] | exact e].
  - split; [intros (_ & h); split; [exact h|]; discriminate | intros (h & _); split; [apply kd|]; exact h].
Qed.
(** the names come in increasing order, each of them once *)
Theorem namespaces_sorted : forall m contains, maps_wf m -> Sorted Before (map fst (namespaces m contains)).
Proof.
  intros m contains wf. unfold namespaces. set (ns := chain_maps _).
  assert (k : forall l, (forall k, In k l -> In k (dkeys ns)) -> NoDup l ->
    Sorted Before (map fst (flat_map (fun k => match dget k ns with Some u => [(k, u)] | None => [] end) (sort_names l)))).
  { intros l h nd. rewrite listing_keys.
    - apply sorted_strict; [apply sort_names_sorted|]. apply (Permutation_NoDup (sort_names_perm l)). exact nd.
    - intros x i. apply h. apply (Permutation_in _ (Permutation_sym (sort_names_perm l))). exact i. }
  assert (nd : NoDup (dkeys ns)) by (apply all_wf; exact wf).
  destruct contains as [[|c s]|]; apply k; auto.
  - intros x i. apply filter_In in i. apply i.
  - apply NoDup_filter. exact nd.
Qed.

(** what is listed of the document that is opened: its definitions under their dotted names; one named under both tags leads to the second *)
Lemma of_tag_get cname u tag names : forall d x v, dget x (of_tag cname u tag names d) = Some v <->
  (exists k, In k names /\ x = cname ++ "." :: k /\ v = u ++ "/" :: tag ++ "/" :: k) \/ ((forall k, In k names -> x <> cname ++ "." :: k) /\ dget x d = Some v).
Proof.
  induction names as [|n names IH]; intros d x v; [cbn; split; [intros h; right; split; [intros ? []|exact h] | intros [(? & [] & _)|(_ & h)]; exact h]|].
  cbn [of_tag fold_left]. fold (of_tag cname u tag names (dset (cname ++ "." :: n) (u ++ "/" :: tag ++ "/" :: n) d)). rewrite IH, dget_dset. split.
  - intros [(k & i & h)|(h1 & h2)]; [left; exists k; split; [right; exact i | exact h]|].
    destruct (eq_dec x (cname ++ "." :: n)) as [e|ne]; [left; exists n; split; [left; reflexivity|]; split; [exact e | congruence]|].
    right. split; [|exact h2]. intros k [<-|i]; [exact ne | apply h1; exact i].
  - assert (k : (exists k, In k names /\ x = cname ++ "." :: k) \/ forall k, In k names -> x <> cname ++ "." :: k).
    { clear. induction names as [|a l IHl]; [right; intros ? []|]. destruct IHl as [(k & i & e)|h]; [left; exists k; split; [right; exact i | exact e]|].
      destruct (eq_dec x (cname ++ "." :: a)) as [e|ne]; [left; exists a; split; [left; reflexivity | exact e]|]. right. intros k [<-|i]; [exact ne | apply h; exact i]. }
    intros [(k0 & i & e1 & e2)|(h1 & h2)].
    + destruct k as [(k & i' & e)|h].
      * left. exists k. split; [exact i'|]. split; [exact e|]. rewrite e1 in e. apply app_inv_head in e. injection e as ->. exact e2.
      * right. split; [exact h|]. destruct i as [->|i]; [|destruct (h k0 i e1)]. destruct (eq_dec x (cname ++ "." :: k0)); congruence.
    + right. split; [intros k0 i; apply h1; right; exact i|]. destruct (eq_dec x (cname ++ "." :: n)) as [e|ne]; [destruct (h1 n (or_introl eq_refl) e) | exact h2].
Qed.
Theorem definitions_listed : forall resolve m n found doc defs, fst (get_id_cname m n false) = Ok found -> resolve found = Ok doc ->
  get_cname_definitions resolve m n = Ok defs ->
  let id := match found with Some id => id | None => chars "None" end in
  forall x v, dget x defs = Some v <->
    exists k, x = n ++ "." :: k /\
      (In k (doc (chars "definitions")) /\ v = id ++ chars "/definitions/" ++ k \/
       ~ In k (doc (chars "definitions")) /\ In k (doc (chars "$defs")) /\ v = id ++ chars "/$defs/" ++ k).
Proof.
  intros resolve m n found doc defs h1 h2 h id x v. unfold get_cname_definitions in h. rewrite h1 in h. cbn [rbind] in h. rewrite h2 in h. cbn [rbind] in h.
  injection h as <-. rewrite of_tag_get, of_tag_get. split.
  - intros [(k & i & e1 & e2)|(g & [(k & i & e1 & e2)|(_ & e)])]; [| |discriminate e].
    + exists k. split; [exact e1|]. left. split; [exact i | exact e2].
    + exists k. split; [exact e1|]. right. split; [intros i'; exact (g k i' e1)|]. split; [exact i | exact e2].
  - intros (k & e1 & [(i & e2)|(ni & i & e2)]); [left; exists k; auto|]. right. split.
    + intros k' i' e. apply ni. rewrite e1 in e. apply app_inv_head in e. injection e as ->. exact i'.
    + left. exists k. auto.
Qed.

(** the definitions of a namespace are not found: its name is taken for an identifier, and what is opened is that name and not where it leads *)
Theorem definitions_of_name_refuted : forall resolve m n u e, m_ids m = [] -> Plain n -> LeadsTo m n u ->
  (forall c v, dget c (full_registry m) = Some v -> ~ Prefix v n) -> maps_wf m -> dmem (uri_norm n) (m_docs m) = false ->
  resolve (Some n) = Err e -> get_cname_definitions resolve m n = Err e.
Proof.
  intros resolve m n u e hc hp _ hreg wf hd he. unfold get_cname_definitions, get_id_cname. rewrite hc.
  assert (q : id_cname (m_docs m) (full_registry m) n = Some n).
  { unfold id_cname, find_ns_by_uri.
    assert (wf' : dwf (full_registry m)).
    { destruct wf as (h1 & h2 & h3). unfold full_registry, registry. apply chain_maps_wf. repeat constructor; [|exact h3]. apply chain_maps_wf. constructor; [exact h1|]. apply Forall_forall. exact h2. }
    rewrite filter_none.
    - cbn [map greatest]. assert (e1 : fst (cut "#" n) = n).
      { pose proof (plain_no_hash n hp) as nh. clear -nh. induction n as [|c n IH]; [reflexivity|]. cbn [cut].
        destruct (beq_spec _ c "#") as [->|h]; [exfalso; apply nh; left; reflexivity|]. cbn [fst]. rewrite IH; [reflexivity|]. intros i. apply nh. right. exact i. }
      rewrite e1, hd. destruct n as [|c s] eqn:en; [destruct hp as [h _]; congruence|]. rewrite <- en in *. f_equal.
      assert (no : forall x, x = "#" \/ x = "/" -> ~ In x n).
      { intros x [->| ->]; [apply plain_no_hash | apply plain_no_slash]; exact hp. }
      assert (e2 : strip ["#"] n = n).
      { unfold strip. assert (ls : forall t, ~ In "#" t -> lstrip ["#"] t = t).
        { intros [|a t] h; [reflexivity|]. apply lstrip_id. intros [q|[]]. apply h. left. congruence. }
        rewrite (ls n) by (apply no; auto). rewrite ls; [apply rev_involutive|]. intros i. apply in_rev in i. revert i. apply no. auto. }
      rewrite e2. unfold fragment_to_cname. assert (e3 : lstrip ["/"] n = n).
      { rewrite en. apply lstrip_id. intros [q|[]]. apply (no "/"); [auto|]. rewrite en. left. congruence. }
      rewrite e3, split_char_free by (apply no; auto). cbn [odd_or_last map ljoin]. apply plain_clean. exact hp.
    - intros [c v] i. cbn [snd]. destruct (is_prefix v n) eqn:ep; [|reflexivity]. exfalso. apply (hreg c v); [apply In_dget; assumption | apply is_prefix_spec; exact ep]. }
  cbn -[id_cname full_registry]. rewrite q. cbn -[id_cname full_registry]. rewrite he. reflexivity.
Qed.

(** ** cases *)
Definition demo_mgr : mgr :=
  {| m_local := [([], ["#"]); (chars "b", chars "https://x.org/b")]; m_parents := [[(chars "p", chars "https://x.org/p"); (chars "b", chars "https://y.org/b")]];
     m_builder := [(chars "a", chars "https://x.org/a"); (chars "p", chars "https://y.org/p")];
     m_docs := [(chars "https://numengo.org/a", VNone); (chars "https://numengo.org/doc", VNone); (chars "https://numengo.org/doc?v=2", VNone)];
     m_cur := []; m_cur_uri := ["#"]; m_ids := []; m_names := [] |}.
Example ex_namespaces : map (fun p => (string_of_list_ascii (fst p), string_of_list_ascii (snd p))) (namespaces demo_mgr None) =
  [("", "#"); ("a", "https://x.org/a"); ("b", "https://x.org/b"); ("doc", "https://numengo.org/doc?v=2"); ("p", "https://x.org/p")]%string.
Proof. vm_compute. reflexivity. Qed.
Example ex_contains : map fst (namespaces demo_mgr (Some (chars "o"))) = [chars "doc"].
Proof. vm_compute. reflexivity. Qed.
Example ex_maps_wf : maps_wf demo_mgr.
Proof.
  assert (k : forall d : dict str str, dedup (dkeys d) = dkeys d -> dwf d) by (intros d h; unfold dwf; rewrite <- h; apply dedup_NoDup).
  split; [|split]; [apply k; reflexivity | intros p [<-|[]]; apply k; reflexivity | apply k; reflexivity].
Qed.
Example ex_leads : LeadsTo demo_mgr (chars "doc") (chars "https://numengo.org/doc?v=2").
Proof. apply leads_get. reflexivity. Qed.
(** the document of the namespace is there, with a definition, and is not asked for *)
Definition demo_resolve (u : option str) : res (str -> list str) :=
  if beq u (Some (chars "https://x.org/a")) then Ok (fun t => if beq t (chars "$defs") then [chars "T"] else []) else Err ValueError.
Example ex_definitions : get_cname_definitions demo_resolve demo_mgr (chars "a") = Err ValueError.
Proof.
  apply (definitions_of_name_refuted demo_resolve demo_mgr (chars "a") (chars "https://x.org/a")); try reflexivity.
  - split; [discriminate|]. intros c [<-|[]]. left. right. vm_compute. lia.
  - apply leads_get. reflexivity.
  - intros c v h. apply dget_In in h. vm_compute in h. intros (r & e).
    repeat (destruct h as [h|h]; [injection h as <- <-; discriminate e|]). destruct h.
  - apply ex_maps_wf.
Qed.
(** an identifier that is its own name *)
Definition demo_resolve2 (u : option str) : res (str -> list str) :=
  if beq u (Some (chars "a")) then Ok (fun t => if beq t (chars "$defs") then [chars "T"; chars "U"] else [chars "T"]) else Err ValueError.
Example ex_definitions2 : get_cname_definitions demo_resolve2 demo_mgr (chars "a") =
  Ok [(chars "a.T", chars "a/definitions/T"); (chars "a.U", chars "a/$defs/U")].
Proof. vm_compute. reflexivity. Qed.
Print Assumptions namespaces_listed.
Print Assumptions definitions_listed.
Print Assumptions namespaces_sorted.
Print Assumptions definitions_of_name_refuted.
