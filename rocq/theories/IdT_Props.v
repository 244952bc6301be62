(** Properties of the identifier type (C59). *)
From Verif Require Import IdT_Model IdT_Spec Coll_Proofs Ns_Proofs Ns_Props Uri_Proofs Uri_Props Str_Proofs IdT_Proofs.
Local Open Scope char_scope. Local Open Scope list_scope.

(** what conversion returns names one element of one document, with a single '#'; the document is never left out, unless the
    current namespace has none *)
Theorem id_shape : forall m v u m' cur, v <> [] -> id_convert m v = (Ok u, m') -> Doc (m_cur_uri m) cur ->
  exists d f, Ref d f u /\ (d <> [] \/ d = cur).
Proof.
  intros m v u m' cur ne e hb. unfold id_convert in e. destruct v as [|c v]; [congruence|]. cbv beta iota zeta in e. set (w := c :: v) in *. injection e as e _.
  match type of e with rbind ?q _ = _ => destruct q as [r|x] end; [|discriminate]. cbn [rbind] in e. injection e as <-.
  apply (scope_hash _ _ _); [|exact hb]. destruct (mem_spec EqDec_ascii "#" r) as [i|_]; [exact i|]. apply in_or_app. right. left. reflexivity.
Qed.
Print Assumptions id_shape.
(** an element of a named document is kept as it is, a bare fragment is one of the current document, and what is neither a
    reference nor a name is a document *)
Theorem id_references : forall m cur d f v, Doc (m_cur_uri m) cur ->
  (Ref d f v -> d <> [] -> id_convert m v = (Ok v, m)) /\
  (Ref [] f v -> id_convert m v = (Ok (cur ++ v), m)) /\
  (v <> [] -> ~ In "#" v -> (forall r, CName r -> v <> r /\ v <> r ++ [newline]) -> id_convert m v = (Ok (v ++ ["#"]), m)).
Proof.
  intros m cur d f v hb. split; [|split].
  - intros h ne. rewrite convert_hash by (apply (Ref_in d f); exact h). rewrite (scope_ref d f v _ cur h hb).
    destruct h as (-> & _). destruct d; [congruence|reflexivity].
  - intros h. rewrite convert_hash by (apply (Ref_in [] f); exact h). rewrite (scope_ref [] f v _ cur h hb). destruct h as (-> & _). reflexivity.
  - intros ne nh nc. unfold id_convert. destruct v as [|c v]; [congruence|]. cbv beta iota zeta. set (w := c :: v) in *.
    assert (e : cn_match w = false).
    { destruct (cn_match w) eqn:e; [|reflexivity]. apply cn_match_spec in e. destruct e as (r & hr & o). destruct (nc r hr). destruct o; congruence. }
    rewrite e. cbn [fst snd rbind]. rewrite (proj2 (mem_not_In _ _ _) nh).
    rewrite (scope_ref w [] (w ++ ["#"]) (m_cur_uri m) cur); [reflexivity| |exact hb]. split; [reflexivity|]. split; [exact nh|intros []].
Qed.
Print Assumptions id_references.
(** converting twice changes nothing *)
Theorem id_convert_idempotent : forall m v u m', id_convert m v = (Ok u, m') -> id_convert m' u = (Ok u, m').
Proof.
  intros m v u m' e. destruct v as [|c v]; [injection e as <- <-; reflexivity|].
  pose proof (Doc_exists (m_cur_uri m)) as hb. destruct (id_shape m (c :: v) u m' _ ltac:(discriminate) e hb) as (d & f & h & o).
  rewrite convert_hash by (apply (Ref_in d f); exact h).
  assert (eu : m_cur_uri m' = m_cur_uri m).
  { unfold id_convert in e. injection e as _ <-. match goal with |- context [if ?b then _ else _] => destruct b end; [apply get_cname_id_uri|reflexivity]. }
  rewrite eu, (scope_ref d f u _ _ h hb). destruct h as (-> & _). destruct d; [|reflexivity]. destruct o as [o|o]; [congruence|]. rewrite <- o. reflexivity.
Qed.
Print Assumptions id_convert_idempotent.
(** an identifier is written without its document when it belongs to the current one, whole otherwise; read back in the same
    namespace it is the same *)
Theorem id_serialize_round_trip : forall m cur d f u, Doc (m_cur_uri m) cur -> Ref d f u -> (d <> [] \/ d = cur) ->
  let s := if eq_dec d cur then "#" :: f else u in
  id_serialize false m u = (Ok (Some s), m) /\ id_convert m s = (Ok u, m).
Proof.
  intros m cur d f u hb h o s. destruct (h) as (eu & nd & nf). split.
  - unfold id_serialize. rewrite (Doc_split _ _ hb). do 3 f_equal. unfold s. destruct (eq_dec d cur) as [->|ne].
    + rewrite (proj2 (is_prefix_spec (cur ++ ["#"]) u)) by (exists f; rewrite <- app_assoc; exact eu). rewrite eu, skipn_app, skipn_all, Nat.sub_diag. reflexivity.
    + rewrite (proj2 (is_prefix_false (cur ++ ["#"]) u)); [reflexivity|]. intros r er. apply ne. rewrite <- app_assoc in er. cbn [app] in er.
      assert (hs := split_char_app "#" cur r (proj1 hb)). rewrite <- er, eu, split_two in hs by assumption. congruence.
  - unfold s. destruct (eq_dec d cur) as [->|ne].
    + destruct (id_references m cur [] f ("#" :: f) hb) as (_ & h2 & _). rewrite h2 by (split; [reflexivity|split; [intros []|exact nf]]). rewrite eu. reflexivity.
    + destruct o as [o|o]; [|congruence]. destruct (id_references m cur d f u hb) as (h1 & _). apply h1; assumption.
Qed.
Print Assumptions id_serialize_round_trip.
(** ... and in the namespace of another document an identifier of the first document becomes one of the other *)
Theorem id_written_locally_refuted : forall m m2 cur cur2 f u, Doc (m_cur_uri m) cur -> Doc (m_cur_uri m2) cur2 -> cur <> cur2 -> Ref cur f u ->
  exists s, id_serialize false m u = (Ok (Some s), m) /\ fst (id_convert m2 s) = Ok (cur2 ++ "#" :: f) /\ cur2 ++ "#" :: f <> u.
Proof.
  intros m m2 cur cur2 f u hb hb2 ne h. destruct (id_serialize_round_trip m cur cur f u hb h (or_intror eq_refl)) as (e & _).
  destruct (eq_dec cur cur) as [_|n]; [|congruence]. exists ("#" :: f). split; [exact e|]. destruct h as (eu & nd & nf). split.
  - destruct (id_references m2 cur2 [] f ("#" :: f) hb2) as (_ & h2 & _). rewrite h2 by (split; [reflexivity|split; [intros []|exact nf]]). reflexivity.
  - intros e2. apply ne. assert (r2 : Ref cur2 f u) by (split; [symmetry; exact e2|split; [apply hb2|exact nf]]).
    symmetry. apply (Ref_inj cur2 f cur f u r2). split; [exact eu|split; assumption].
Qed.
Print Assumptions id_written_locally_refuted.

(** a canonical name of a registered namespace is converted to an identifier in that namespace, and written canonically it is the
    name again, whatever the current namespace is *)
Theorem canonical_round_trip : forall m n u names, m_ids m = [] -> m_names m = [] ->
  dwf (full_registry m) -> CName n -> hd " " n <> "." -> dget n (full_registry m) = Some u ->
  u <> [] -> hd " " u <> "#" -> (~ In "#" u \/ exists d f, Ref d f u) ->
  names <> [] -> (forall x, In x names -> Plain x) ->
  (forall c, In c (dkeys (full_registry m)) -> Within c (n ++ "." :: dotted names) -> length c <= length n) ->
  (forall doc k, dget (uri_norm u) (m_docs m) = Some doc -> HasKey doc k -> k <> [] /\ ~ In "/" k /\ ~ In "#" k) ->
  (forall c' u', dget c' (full_registry m) = Some u' -> c' <> n -> c' <> [] -> ~ Prefix u' u /\ ~ Prefix u u') ->
  exists id m', id_convert m (n ++ "." :: dotted names) = (Ok id, m') /\ Prefix u id /\
    fst (id_serialize true m' id) = Ok (Some (n ++ "." :: dotted names)).
Proof.
  intros m n u names e1 e2 wf (hn & hcn) hd0 hr hu hh hone hne hp hl hdoc ho. set (cname := n ++ "." :: dotted names) in *.
  assert (hdoc' : forall doc k, dget (uri_norm u) (m_docs m) = Some doc -> HasKey doc k -> k <> [] /\ ~ In "/" k).
  { intros doc k ed hk. destruct (hdoc doc k ed hk) as (a & b & _). split; assumption. }
  destruct (rt_id_tags (m_docs m) (full_registry m) n u names hu hr hne hp hl hdoc' ho (m_cur m)) as (tags & l & g & e).
  change (n ++ "." :: dotted names) with cname in e.
  assert (gt : forall t, In t tags -> t <> [] /\ ~ In "/" t /\ ~ In "#" t).
  { intros t i. destruct (g t i) as [->|[->|[(k & ->)|(doc & ed & h)]]];
      [split; [discriminate|split; vm_compute; intuition discriminate]..|split; [apply index_name_good|split; [apply index_name_good|apply index_no_hash]]|].
    apply (hdoc doc t ed h). }
  set (tail := "/" :: ljoin ["/"] (interleave tags names)) in *.
  assert (nt : ~ In "#" tail).
  { intros [h|h]; [discriminate|]. apply ljoin_chars in h. destruct h as [[h|[]]|(w & iw & h)]; [discriminate|].
    apply interleave_In in iw. destruct iw as [iw|iw]; [apply (gt w iw); exact h|apply (plain_no_hash w (hp w iw)); exact h]. }
  assert (hid : exists d f, Ref d f (id_of u names tags) /\ d <> []).
  { unfold id_of. fold tail. destruct (mem_spec EqDec_ascii "#" u) as [i|ni].
    - destruct hone as [no|(d & f & -> & nd & nf)]; [contradiction|]. exists d, (f ++ tail). split.
      + split; [rewrite <- app_assoc; reflexivity|]. split; [exact nd|]. intros h. apply in_app_iff in h. tauto.
      + intros ->. apply hh. reflexivity.
    - exists u, tail. split; [split; [reflexivity|split; assumption]|exact hu]. }
  destruct hid as (d & f & hid & nd0).
  assert (cm : cn_match cname = true).
  { apply cn_match_spec. exists cname. split; [|left; reflexivity]. split; [unfold cname; destruct n; discriminate|].
    intros c i. unfold cname in i. apply in_app_iff in i. destruct i as [i|[<-|i]]; [apply hcn; exact i|right; right; right; reflexivity|].
    apply ljoin_chars in i. destruct i as [[<-|[]]|(w & iw & i)]; [right; right; right; reflexivity|].
    destruct (hp w iw) as (_ & h). destruct (h c i) as [a|[a|a]]; [left|right; left|right; right; left]; exact a. }
  assert (ea : absolute (m_cur m) cname = Ok cname).
  { unfold absolute, cname. destruct n as [|c n']; [congruence|]. cbn [hd app] in *. destruct c as [[] [] [] [] [] [] [] []]; reflexivity || (exfalso; apply hd0; reflexivity). }
  exists (id_of u names tags). eexists. split; [|split; [eexists; reflexivity|]].
  - rewrite (convert_name m cname cm).
    unfold get_cname_id. rewrite ea, e2. unfold lru_call at 1. cbn [dget]. cbn [fst snd]. rewrite e. cbn [fst snd rbind].
    destruct (id_serialize_round_trip m (hd [] (split_char "#" (m_cur_uri m))) d f (id_of u names tags) (Doc_exists _) hid (or_introl nd0)) as (es & er).
    unfold id_serialize in es. injection es as es. cbv zeta. rewrite es.
    match goal with |- (Ok (scope (if mem "#" ?s then _ else _) _), _) = _ => assert (ih : In "#" s) end.
    { destruct (eq_dec d _); [left; reflexivity|apply (Ref_in d f); exact hid]. }
    rewrite (proj2 (mem_In _ _ _) ih). rewrite convert_hash in er by exact ih. injection er as er. rewrite er. reflexivity.
  - cbn [snd]. unfold id_serialize.
    unfold get_id_cname. cbn [m_ids m_docs m_cur]. rewrite e1. unfold lru_call. cbn [dget fst snd].
    change (full_registry {| m_local := _; m_parents := _; m_builder := _; m_docs := _; m_cur := _; m_cur_uri := _; m_ids := _; m_names := _ |}) with (full_registry m).
    cbn [fst rbind]. rewrite (rt_name (m_docs m) (full_registry m) n u names); auto.
    intros t i. destruct (gt t i) as (a & b & _). split; assumption.
Qed.
Print Assumptions canonical_round_trip.
(** the current namespace 'x.doc' is that of the name, the other one is not; neither hypothesis on other namespaces is vacuous *)
Definition sample_mgr : mgr :=
  {| m_local := [([], chars "https://x.org/doc"); (chars "x.doc", chars "https://x.org/doc")]; m_parents := [[(chars "y", chars "https://y.org/d#/a")]]; m_builder := [];
     m_docs := sample_docs; m_cur := chars "x.doc"; m_cur_uri := chars "https://x.org/doc"; m_ids := []; m_names := [] |}.
Example canonical_case :
  fst (id_convert sample_mgr (chars "x.doc.T.p")) = Ok (chars "https://x.org/doc#/$defs/T/properties/p") /\
  fst (id_serialize true sample_mgr (chars "https://x.org/doc#/$defs/T/properties/p")) = Ok (Some (chars "x.doc.T.p")) /\
  fst (id_serialize false sample_mgr (chars "https://x.org/doc#/$defs/T/properties/p")) = Ok (Some (chars "#/$defs/T/properties/p")) /\
  fst (id_convert sample_mgr (chars "y.A.b")) = Ok (chars "https://y.org/d#/a/$defs/A/$defs/b") /\
  fst (id_convert sample_mgr (chars "https://z.org/e")) = Ok (chars "https://z.org/e#").
Proof. repeat split; vm_compute; reflexivity. Qed.

(** * the check *)
(** accepted: what has a fragment that is not empty, and, when names are allowed and a context is given, a name the manager can
    locate *)
Theorem id_check_accepts : forall canonical ctx v, is_ok (id_check canonical ctx v) = true <->
  (exists d f, v = d ++ "#" :: f /\ ~ In "#" d /\ f <> []) \/
  (canonical = true /\ exists m r, ctx = Some m /\ CName r /\ (v = r \/ v = r ++ [newline]) /\ is_ok (fst (get_cname_id m r)) = true).
Proof.
  intros canonical ctx v. unfold id_check. destruct (has_fragment v) eqn:ef.
  - apply has_fragment_spec in ef. split; [intros _; left; exact ef|reflexivity].
  - destruct (cn_match v && canonical) eqn:em.
    + apply andb_true_iff in em. destruct em as [em ->]. apply cn_match_spec in em. destruct em as (r & hr & o).
      assert (eg : cn_group v = r) by (destruct (cn_group_spec r hr); destruct o as [->| ->]; assumption). rewrite eg. split.
      * destruct ctx as [m|]; [|discriminate]. intros h. right. split; [reflexivity|]. exists m, r. repeat split; [apply hr|apply hr|exact o|].
        destruct (fst (get_cname_id m r)); [reflexivity|discriminate].
      * intros [h|(_ & m & r' & -> & hr' & o' & h)]; [apply has_fragment_spec in h; congruence|].
        assert (r' = r) as -> by (rewrite <- eg; destruct (cn_group_spec r' hr'); destruct o' as [->| ->]; congruence).
        destruct (fst (get_cname_id m r)); [reflexivity|discriminate].
    + split; [discriminate|]. intros [h|(-> & m & r & -> & hr & o & h)]; [apply has_fragment_spec in h; congruence|].
      rewrite (proj2 (cn_match_spec v)) in em by eauto. discriminate.
Qed.
Print Assumptions id_check_accepts.
Example id_check_case : is_ok (id_check true None (chars "https://x.org/doc#/a")) = true /\ is_ok (id_check true (Some sample_mgr) (chars "y.A")) = true /\
  is_ok (id_check true (Some sample_mgr) (chars "a b")) = false.
Proof. repeat split. Qed.

(** deviations *)
(** the identifier of a whole document, as conversion writes it, is refused by the check *)
(** what is neither a reference nor a canonical name is of the wrong type *)
Theorem id_check_type_error : forall canonical ctx v, ~ (exists d f, v = d ++ "#" :: f /\ ~ In "#" d /\ f <> []) ->
  canonical = false \/ (forall r, CName r -> v <> r /\ v <> r ++ [newline]) -> id_check canonical ctx v = Err TypeError.
Proof.
  intros canonical ctx v nf h. unfold id_check. destruct (has_fragment v) eqn:ef; [destruct nf; apply has_fragment_spec; exact ef|].
  destruct (cn_match v) eqn:em; cbn [andb]; [|reflexivity]. destruct h as [->|h]; [reflexivity|]. exfalso.
  apply cn_match_spec in em. destruct em as (r & hr & [e|e]); destruct (h r hr); contradiction.
Qed.
Print Assumptions id_check_type_error.
Theorem id_check_document_refuted : forall canonical ctx d, ~ In "#" d -> d <> [] -> is_ok (id_check canonical ctx (d ++ ["#"])) = false /\
  forall m, exists m', id_convert m (d ++ ["#"]) = (Ok (d ++ ["#"]), m').
Proof.
  intros canonical ctx d nd ne. split.
  - destruct (is_ok (id_check canonical ctx (d ++ ["#"]))) eqn:e; [|reflexivity]. apply id_check_accepts in e.
    destruct e as [(d' & f & e & nd' & nf)|(_ & m & r & _ & (_ & hr) & o & _)].
    + exfalso. apply nf. assert (h1 := split_two d [] nd (fun i => i)). rewrite e, split_char_app in h1 by exact nd'. injection h1 as -> h1.
      apply app_inv_head in e. congruence.
    + exfalso. assert (i : In "#" r).
      { assert (j : In "#" (d ++ ["#"])) by (apply in_or_app; right; left; reflexivity). destruct o as [o|o]; rewrite o in j; [exact j|].
        apply in_app_iff in j. destruct j as [j|[j|[]]]; [exact j|discriminate]. }
      apply hr in i. apply cn_char_spec in i. discriminate.
  - intros m. exists m. destruct (id_references m _ d [] (d ++ ["#"]) (Doc_exists _)) as (h & _). apply h; [|exact ne]. repeat split; [exact nd|intros []].
Qed.
Print Assumptions id_check_document_refuted.
(** no name is accepted without a context, though conversion accepts it *)
Theorem id_check_no_context_refuted : forall canonical r, CName r -> is_ok (id_check canonical None r) = false.
Proof.
  intros canonical r hr. destruct (is_ok (id_check canonical None r)) eqn:e; [|reflexivity]. apply id_check_accepts in e.
  destruct e as [(d & f & -> & _ & _)|(_ & m & r' & h & _)]; [|discriminate]. exfalso. destruct hr as (_ & hr).
  assert (i : In "#" (d ++ "#" :: f)) by (apply in_or_app; right; left; reflexivity). apply hr in i. apply cn_char_spec in i. discriminate.
Qed.
Print Assumptions id_check_no_context_refuted.
(** a document whose name is a plain word cannot be designated without its '#': the word is taken for a definition of the current
    namespace, even when the document is loaded *)
Theorem id_plain_document_refuted : exists m v, dmem v (m_docs m) = true /\ fst (id_convert m v) <> Ok (v ++ ["#"]) /\
  fst (id_convert m v) = Ok (m_cur_uri m ++ chars "/$defs/" ++ v).
Proof. exists (new_mgr [] [] [(chars "doc", VDict [])]), (chars "doc"). split; [reflexivity|]. split; [vm_compute; discriminate|reflexivity]. Qed.
Print Assumptions id_plain_document_refuted.
(** what follows a second '#' is lost: different values become one identifier *)
Theorem id_second_hash_refuted : forall m d f x y, ~ In "#" d -> ~ In "#" f ->
  id_convert m (d ++ "#" :: f ++ "#" :: x) = id_convert m (d ++ "#" :: f ++ "#" :: y).
Proof.
  intros m d f x y nd nf. rewrite !convert_hash by (apply in_or_app; right; left; reflexivity). rewrite !scope_extra_dropped by assumption. reflexivity.
Qed.
Print Assumptions id_second_hash_refuted.
(** a name followed by a newline is taken for a name, the newline included *)
Theorem id_newline_refuted : exists m, fst (id_convert m (chars "T" ++ [newline])) = Ok (chars "#/$defs/T" ++ [newline]).
Proof. exists (new_mgr [] [] []). reflexivity. Qed.
Print Assumptions id_newline_refuted.
