(** Properties of the namespace manager (C36, C37, C38, C39). *)
From Verif Require Import Ns_Model Ns_Spec Coll_Proofs Str_Proofs Ns_Proofs.
Local Open Scope char_scope. Local Open Scope list_scope.

(** * C36 *)
(** the maps are tried in order: local names, parents, names of the type builder *)
Theorem registry_first_wins : forall m k,
  dget k (full_registry m) =
  match find (fun d => dmem k d) (m_local m :: m_parents m ++ [m_builder m]) with Some d => dget k d | None => None end.
Proof.
  intros m k. rewrite <- chain_maps_get. change (m_local m :: m_parents m ++ [m_builder m]) with ((m_local m :: m_parents m) ++ [m_builder m]).
  rewrite chain_maps_app. unfold full_registry. change [registry m; m_builder m] with ([registry m] ++ [m_builder m]). rewrite chain_maps_app.
  unfold registry at 1. rewrite (chain_maps_one (chain_maps (m_local m :: m_parents m))). reflexivity.
Qed.
Print Assumptions registry_first_wins.

Lemma ns_greatest reg cname g : greatest (filter (in_ns cname) (dkeys reg)) = Some g ->
  In g (@dkeys str str reg) /\ Within g cname /\ forall c, In c (dkeys reg) -> Within c cname -> Prefix c g.
Proof.
  intros h. apply greatest_spec in h. destruct h as [i m]. apply filter_In in i. destruct i as [i w]. apply in_ns_spec in w.
  split; [exact i|]. split; [exact w|]. intros c ic wc. apply (LexLe_prefix c g cname); [apply Within_prefix; exact wc|apply Within_prefix; exact w|].
  apply m. apply filter_In. split; [exact ic|]. apply in_ns_spec. exact wc.
Qed.
(** when some registered namespace contains the name, the answer is registered, contains it, and extends every other one
    that does *)
Theorem ns_by_cname_longest : forall docs reg cname, (exists c, In c (dkeys reg) /\ Within c cname) ->
  exists c u, find_ns_by_cname docs reg cname = Some (c, u) /\ dget c reg = Some u /\ Within c cname /\
    forall c', In c' (dkeys reg) -> Within c' cname -> Prefix c' c.
Proof.
  intros docs reg cname (c0 & i0 & w0). unfold find_ns_by_cname. destruct (greatest (filter (in_ns cname) (dkeys reg))) as [g|] eqn:e.
  - apply ns_greatest in e. destruct e as (i & w & m). destruct (dkeys_dget g reg i) as (u & eu). rewrite eu. exists g, u. auto.
  - apply greatest_none in e. assert (i : In c0 (filter (in_ns cname) (dkeys reg))) by (apply filter_In; split; [exact i0|apply in_ns_spec; exact w0]).
    rewrite e in i. destruct i.
Qed.
Print Assumptions ns_by_cname_longest.
(** otherwise it is the first loaded document whose name contains it *)
Theorem ns_by_cname_documents : forall docs reg cname c u, (forall c, In c (dkeys reg) -> ~ Within c cname) ->
  (find_ns_by_cname docs reg cname = Some (c, u) <->
   exists d1 d2, dkeys docs = d1 ++ u :: d2 /\ c = uri_to_cname u /\ Within c cname /\ forall u', In u' d1 -> ~ Within (uri_to_cname u') cname).
Proof.
  intros docs reg cname c u h. unfold find_ns_by_cname.
  assert (e : filter (in_ns cname) (dkeys reg) = []).
  { apply filter_none. intros x i. destruct (in_ns cname x) eqn:ex; [|reflexivity]. apply in_ns_spec in ex. destruct (h x i ex). }
  rewrite e. cbn [greatest]. split.
  - destruct (find (fun u0 => in_ns cname (uri_to_cname u0)) (dkeys docs)) as [u0|] eqn:ef; [|discriminate]. intros hh. injection hh as <- <-.
    apply find_split_first in ef. destruct ef as (d1 & d2 & ed & w & n). exists d1, d2. split; [exact ed|]. split; [reflexivity|].
    split; [apply in_ns_spec; exact w|]. intros u' i w'. apply in_ns_spec in w'. rewrite (n u' i) in w'. discriminate.
  - intros (d1 & d2 & ed & -> & w & n). rewrite ed. clear ed. induction d1 as [|x d1 IH]; cbn [app find].
    + rewrite (proj2 (in_ns_spec _ _) w). reflexivity.
    + destruct (in_ns cname (uri_to_cname x)) eqn:ex; [apply in_ns_spec in ex; destruct (n x (or_introl eq_refl) ex)|].
      apply IH. intros u' i. apply n. right. exact i.
Qed.
Print Assumptions ns_by_cname_documents.
(** it fails exactly when neither a namespace nor a document contains the name *)
Theorem ns_by_cname_none : forall docs reg cname,
  find_ns_by_cname docs reg cname = None <->
  (forall c, In c (dkeys reg) -> ~ Within c cname) /\ (forall u, In u (dkeys docs) -> ~ Within (uri_to_cname u) cname).
Proof.
  intros docs reg cname. split.
  - intros h. assert (nr : forall c, In c (dkeys reg) -> ~ Within c cname).
    { intros c i w. destruct (ns_by_cname_longest docs reg cname) as (c' & u & e & _); [eauto|congruence]. }
    split; [exact nr|]. intros u i w. unfold find_ns_by_cname in h. rewrite filter_none in h.
    + cbn [greatest] in h. destruct (find (fun u0 => in_ns cname (uri_to_cname u0)) (dkeys docs)) eqn:ef; [discriminate|].
      pose proof (find_none _ _ ef u i) as f. cbv beta in f. rewrite (proj2 (in_ns_spec _ _) w) in f. discriminate.
    + intros x ix. destruct (in_ns cname x) eqn:ex; [|reflexivity]. apply in_ns_spec in ex. destruct (nr x ix ex).
  - intros [nr nd]. destruct (find_ns_by_cname docs reg cname) as [[c u]|] eqn:e; [|reflexivity].
    apply ns_by_cname_documents in e; [|exact nr]. destruct e as (d1 & d2 & ed & -> & w & _). destruct (nd u); [|exact w].
    rewrite ed. apply in_or_app. right. left. reflexivity.
Qed.
Print Assumptions ns_by_cname_none.
Definition sample_reg : dict str str := [([], chars "#"); (chars "a", chars "u1"); (chars "a.b", chars "u2"); (chars "a.bc", chars "u3")].
Example ns_by_cname_case : find_ns_by_cname [] sample_reg (chars "a.b.C") = Some (chars "a.b", chars "u2") /\
  find_ns_by_cname [] sample_reg (chars "a.bcd.C") = Some (chars "a", chars "u1") /\ find_ns_by_cname [] sample_reg (chars "ab") = None.
Proof. repeat split. Qed.
(** among documents the first one counts, not the most specific *)
Theorem ns_by_cname_documents_refuted : exists docs cname c u u', find_ns_by_cname docs [] cname = Some (c, u) /\
  In u' (dkeys docs) /\ Within (uri_to_cname u') cname /\ length c < length (uri_to_cname u').
Proof.
  exists [(chars "https://numengo.org/a", VNone); (chars "https://numengo.org/a/b", VNone)], (chars "a.b.C"), (chars "a"),
    (chars "https://numengo.org/a"), (chars "https://numengo.org/a/b").
  split; [reflexivity|]. split; [right; left; reflexivity|]. split; [right; exists (chars "C"); reflexivity|vm_compute; lia].
Qed.
Print Assumptions ns_by_cname_documents_refuted.
(** the current namespace is the longest registered name that is a prefix, in characters, of the one asked for *)
Theorem set_current_longest : forall m name, (exists k, In k (dkeys (registry m)) /\ Prefix k name) ->
  exists m' u, set_current m name = Ok m' /\ dget (m_cur m') (registry m) = Some u /\ m_cur_uri m' = u /\ dget [] (registry m') = Some u /\
    Prefix (m_cur m') name /\ forall k, In k (dkeys (registry m)) -> Prefix k name -> Prefix k (m_cur m').
Proof.
  intros m name (k0 & i0 & p0). unfold set_current. destruct (greatest (filter (fun k => is_prefix k name) (dkeys (registry m)))) as [g|] eqn:e.
  - apply greatest_spec in e. destruct e as [i mx]. apply filter_In in i. destruct i as [i p]. apply is_prefix_spec in p.
    destruct (dkeys_dget g _ i) as (u & eu). rewrite eu. eexists _, u. split; [reflexivity|]. cbn [m_cur m_cur_uri]. split; [exact eu|].
    split; [reflexivity|]. split.
    + unfold registry. cbn [m_local m_parents]. rewrite chain_maps_get. cbn [find]. unfold dmem at 1. rewrite dget_dset_same. apply dget_dset_same.
    + split; [exact p|]. intros k ik pk. apply (LexLe_prefix k g name pk p). apply mx. apply filter_In. split; [exact ik|apply is_prefix_spec; exact pk].
  - apply greatest_none in e. assert (i : In k0 (filter (fun k => is_prefix k name) (dkeys (registry m)))) by (apply filter_In; split; [exact i0|apply is_prefix_spec; exact p0]).
    rewrite e in i. destruct i.
Qed.
Print Assumptions set_current_longest.
(** so a namespace that does not contain the name can become current *)
Theorem set_current_refuted : exists m name m', set_current m name = Ok m' /\ ~ Within (m_cur m') name /\ m_cur m' <> [].
Proof.
  exists (with_local (new_mgr [] [] []) [([], chars "#"); (chars "ab", chars "u")]), (chars "abc"). eexists. split; [reflexivity|].
  cbn [m_cur]. split; [|discriminate]. intros [h|(r & h)]; vm_compute in h; discriminate.
Qed.
Print Assumptions set_current_refuted.
(** registering a document's namespace never changes one already registered by the type builder *)
Theorem register_ns_keeps : forall m uri k u, dget k (m_builder m) = Some u -> dget k (m_builder (register_ns m uri)) = Some u.
Proof.
  intros m uri k u e. unfold register_ns. destruct (dmem (uri_to_cname (fst (cut "#" uri))) (m_builder m)) eqn:d; [exact e|]. cbn [m_builder].
  rewrite dget_dset. destruct (eq_dec k (uri_to_cname (fst (cut "#" uri)))) as [->|n]; [|exact e]. unfold dmem in d. rewrite e in d. discriminate.
Qed.
Print Assumptions register_ns_keeps.

(** a namespace added by name is found under that name, before what parents and builder say, and no other name changes; without
    a name it is registered under the name of its uri; a bare fragment belongs to the default namespace's document *)
Theorem add_ns_registers : forall m uri name d f, ~ In "#" d -> d <> [] -> (uri = d \/ uri = d ++ "#" :: f) ->
  exists m', add_ns m uri name = Ok m' /\
    (forall k, dget k (full_registry m') = if eq_dec k (match name with Some n => n | None => uri_to_cname uri end) then Some uri else dget k (full_registry m)) /\
    m_cur m' = m_cur m /\ m_cur_uri m' = m_cur_uri m /\ m_docs m' = m_docs m.
Proof.
  intros m uri name d f nd ne eu. unfold add_ns.
  assert (ed : hd [] (split_char "#" uri) = d) by (destruct eu as [->| ->]; [rewrite split_char_free by exact nd|rewrite split_char_app by exact nd]; reflexivity).
  rewrite ed. destruct d as [|c d]; [congruence|]. cbn [rbind]. eexists. split; [reflexivity|]. split; [|auto].
  intros k. unfold full_registry, registry. rewrite !chain_maps_cons. cbn [with_local m_local m_parents m_builder].
  rewrite dget_dset. destruct (eq_dec k _) as [->|nk]; reflexivity.
Qed.
Print Assumptions add_ns_registers.
Theorem add_ns_fragment : forall m f name r d g, dget [] (registry m) = Some r -> ~ In "#" d -> (r = d \/ r = d ++ "#" :: g) ->
  exists m', add_ns m ("#" :: f) name = Ok m' /\
    dget (match name with Some n => n | None => uri_to_cname (d ++ "#" :: f) end) (full_registry m') = Some (d ++ "#" :: f).
Proof.
  intros m f name r d g er nd eu. unfold add_ns.
  assert (ed : hd [] (split_char "#" r) = d) by (destruct eu as [->| ->]; [rewrite split_char_free by exact nd|rewrite split_char_app by exact nd]; reflexivity).
  assert (e0 : hd [] (split_char "#" ("#" :: f)) = []) by (change ("#" :: f) with ([] ++ "#" :: f); rewrite split_char_app by (intros []); reflexivity).
  rewrite e0, er, ed. cbn [rbind]. eexists. split; [reflexivity|]. unfold full_registry, registry. rewrite !chain_maps_cons.
  cbn [with_local m_local]. rewrite dget_dset_same. reflexivity.
Qed.
Print Assumptions add_ns_fragment.

(** * C37 *)
Theorem ns_by_uri_prefix : forall docs reg uri, dwf reg -> (exists c u, dget c reg = Some u /\ Prefix u uri) ->
  exists c u, find_ns_by_uri docs reg uri = Some (c, u) /\ dget c reg = Some u /\ Prefix u uri /\
    forall c' u', dget c' reg = Some u' -> Prefix u' uri -> LexLe c' c.
Proof.
  intros docs reg uri wf (c0 & u0 & e0 & p0). unfold find_ns_by_uri.
  assert (i0 : In c0 (map fst (filter (fun cu => is_prefix (snd cu) uri) reg))).
  { change c0 with (fst (c0, u0)). apply in_map. apply filter_In. split; [apply dget_In; exact e0|apply is_prefix_spec; exact p0]. }
  destruct (greatest (map fst (filter (fun cu => is_prefix (snd cu) uri) reg))) as [g|] eqn:e.
  - apply greatest_spec in e. destruct e as [i mx]. apply in_map_iff in i. destruct i as ((c & u) & <- & i). apply filter_In in i. cbn [fst snd] in *.
    destruct i as [i p]. rewrite (In_dget c u reg wf i). exists c, u. split; [reflexivity|]. split; [apply In_dget; assumption|].
    split; [apply is_prefix_spec; exact p|]. intros c' u' e' p'. apply mx. change c' with (fst (c', u')). apply in_map. apply filter_In.
    split; [apply dget_In; exact e'|apply is_prefix_spec; exact p'].
  - apply greatest_none in e. rewrite e in i0. destruct i0.
Qed.
Print Assumptions ns_by_uri_prefix.
(** no registered prefix: the document itself if it is loaded, nothing otherwise *)
Theorem ns_by_uri_document : forall docs reg d f, (forall c u, In (c, u) reg -> ~ Prefix u (d ++ f)) -> ~ In "#" d -> (f = [] \/ hd " " f = "#") ->
  find_ns_by_uri docs reg (d ++ f) = if dmem (uri_norm d) docs then Some (uri_to_cname d, d) else None.
Proof.
  intros docs reg d f h nd hf. unfold find_ns_by_uri. rewrite filter_none.
  - cbn [map greatest]. assert (e : fst (cut "#" (d ++ f)) = d).
    { clear h. induction d as [|c d IH]; cbn [app cut].
      - destruct hf as [->|hf]; [reflexivity|]. destruct f as [|c f]; [reflexivity|]. cbn [hd] in hf. subst c. reflexivity.
      - rewrite (proj2 (beq_false EqDec_ascii c "#")) by (intros ->; apply nd; left; reflexivity). cbn [fst]. f_equal. apply IH. intros i. apply nd. right. exact i. }
    rewrite e. reflexivity.
  - intros (c & u) i. cbn [snd]. destruct (is_prefix u (d ++ f)) eqn:e; [|reflexivity]. apply is_prefix_spec in e. destruct (h c u i e).
Qed.
Print Assumptions ns_by_uri_document.
(** documents are stored under their address in lower case, without an empty fragment *)
Theorem uri_norm_exact : forall d f, ~ In "#" d ->
  uri_norm (d ++ ["#"]) = uri_norm d /\ (f <> [] -> length (uri_norm (d ++ "#" :: f)) = length (d ++ "#" :: f)) /\ length (uri_norm d) = length d /\
  forall i c, nth_error d i = Some c -> exists c', nth_error (uri_norm d) i = Some c' /\
    nat_of_ascii c' = (if Nat.leb 65 (nat_of_ascii c) && Nat.leb (nat_of_ascii c) 90 then nat_of_ascii c + 32 else nat_of_ascii c).
Proof.
  intros d f nd.
  assert (E : uri_norm d = map lower_ascii d).
  { unfold uri_norm. destruct (rev d) as [|x r] eqn:e; [reflexivity|]. assert (x <> "#"). { intros ->. apply nd, in_rev. rewrite e. left. reflexivity. }
    destruct x as [[] [] [] [] [] [] [] []]; try reflexivity. congruence. }
  split; [|split; [|split]].
  - rewrite E. unfold uri_norm. rewrite rev_app_distr. cbn [rev app]. destruct (mem_spec EqDec_ascii "#" (rev d)) as [i|_]; [destruct nd; apply in_rev; exact i|].
    rewrite rev_involutive. reflexivity.
  - intros nf. unfold uri_norm. rewrite map_length. destruct (exists_last nf) as (g & x & ->).
    replace (d ++ "#" :: g ++ [x]) with ((d ++ "#" :: g) ++ [x]) by (rewrite <- app_assoc; reflexivity). rewrite rev_app_distr. cbn [rev app].
    assert (q : mem "#" (rev (d ++ "#" :: g)) = true). { apply mem_In. rewrite <- in_rev. apply in_or_app. right. left. reflexivity. }
    rewrite q. destruct x as [[] [] [] [] [] [] [] []]; reflexivity.
  - rewrite E. apply map_length.
  - intros i c e. rewrite E, nth_error_map, e. cbn [option_map]. eexists. split; [reflexivity|]. destruct c as [[] [] [] [] [] [] [] []]; vm_compute; reflexivity.
Qed.
Print Assumptions uri_norm_exact.
(** the most specific uri is not the one chosen: the namespace with the greatest name is *)
Theorem ns_by_uri_specific_refuted : exists reg uri c u c' u', find_ns_by_uri [] reg uri = Some (c, u) /\ dget c' reg = Some u' /\
  Prefix u' uri /\ Prefix u u' /\ length u < length u'.
Proof.
  exists [(chars "z", chars "https://x.org/"); (chars "a", chars "https://x.org/doc")], (chars "https://x.org/doc#/$defs/T"),
    (chars "z"), (chars "https://x.org/"), (chars "a"), (chars "https://x.org/doc").
  split; [reflexivity|]. split; [reflexivity|]. split; [exists (chars "#/$defs/T"); reflexivity|]. split; [exists (chars "doc"); reflexivity|vm_compute; lia].
Qed.
Print Assumptions ns_by_uri_specific_refuted.

(** * C39 *)
Theorem clean_chars : forall name c, In c (clean_js_name name) -> 65 <= nat_of_ascii c <= 122 \/ Digit c \/ c = ".".
Proof. exact clean_result_chars. Qed.
Theorem clean_after_colon : forall a b, clean_js_name (a ++ ":" :: b) = clean_js_name b.
Proof. intros a b. unfold clean_js_name. rewrite last_split_app. reflexivity. Qed.
Theorem clean_idempotent : forall name, clean_js_name (clean_js_name name) = clean_js_name name.
Proof. intros name. apply clean_good. apply clean_result_chars. Qed.
Theorem clean_identity : forall name, (forall c, In c name -> Letter c \/ Digit c \/ c = "." \/ c = "_") -> clean_js_name name = name.
Proof.
  intros name h. apply clean_good. intros c i. destruct (h c i) as [l|[d|[->| ->]]]; [unfold Letter in l; left; lia|auto|auto|left; vm_compute; lia].
Qed.
(** without a colon: the kept characters, in order, with dashes turned into underscores *)
Theorem clean_word_by_word : forall a c b, ~ In ":" (a ++ c :: b) ->
  clean_js_name (a ++ c :: b) = clean_js_name a ++
    (if eq_dec c "-" then ["_"] else if kept_char c then [c] else []) ++ clean_js_name b.
Proof.
  intros a c b n. unfold clean_js_name. rewrite !last_split_free; [| |intros i; apply n; apply in_or_app; left; exact i|exact n].
  - rewrite filter_app. unfold replace_char. rewrite map_app. f_equal. cbn [filter]. destruct (eq_dec c "-") as [->|nc].
    + reflexivity.
    + destruct (kept_char c); [|reflexivity]. cbn [map app]. rewrite (proj2 (beq_false _ _ _) nc). reflexivity.
  - intros i. apply n. apply in_or_app. right. right. exact i.
Qed.
Theorem clean_for_uri_chars : forall name, ~ In "_" (clean_for_uri name) /\ ~ In ":" (clean_for_uri name) /\ clean_for_uri (clean_for_uri name) = clean_for_uri name.
Proof.
  intros name. assert (a : ~ In "_" (clean_for_uri name)).
  { unfold clean_for_uri. intros i. apply replace_char_In in i. destruct i as [[e _]|[_ e]]; [discriminate|congruence]. }
  assert (b : ~ In ":" (clean_for_uri name)).
  { unfold clean_for_uri. intros i. apply replace_char_In in i. destruct i as [[e _]|[i _]]; [discriminate|]. exact (last_split_no ":" name i). }
  split; [exact a|]. split; [exact b|]. unfold clean_for_uri at 1. rewrite last_split_free by exact b. apply replace_char_id. exact a.
Qed.
Print Assumptions clean_chars. Print Assumptions clean_after_colon. Print Assumptions clean_idempotent. Print Assumptions clean_identity.
Print Assumptions clean_word_by_word. Print Assumptions clean_for_uri_chars.
Example clean_case : clean_js_name (chars "xs:my-elem (2)") = chars "my_elem2" /\ clean_js_name (chars "a.B_3") = chars "a.B_3".
Proof. split; reflexivity. Qed.
(** the range A-z also lets brackets, backslash, caret and backquote through *)
(** it is what follows the last colon, with a dash for each underscore *)
Theorem clean_for_uri_exact : forall a s, ~ In ":" s ->
  clean_for_uri (a ++ ":" :: s) = clean_for_uri s /\ length (clean_for_uri s) = length s /\
  forall i c, nth_error s i = Some c -> nth_error (clean_for_uri s) i = Some (if Ascii.eqb c "_" then "-" else c).
Proof.
  intros a s n. unfold clean_for_uri. rewrite last_split_app, last_split_free by exact n. split; [reflexivity|]. unfold replace_char.
  split; [apply map_length|]. intros i c e. rewrite nth_error_map, e. cbn [option_map]. destruct (Ascii.eqb_spec c "_") as [->|ne]; [reflexivity|].
  rewrite (proj2 (beq_false _ _ _) ne). reflexivity.
Qed.
Print Assumptions clean_for_uri_exact.
(** a full address is taken apart *)
Lemma cut_at c s t : ~ In c s -> cut c (s ++ c :: t) = (s, Some t).
Proof.
  induction s as [|x s IH]; intros n; cbn [app cut].
  - rewrite beq_refl. reflexivity.
  - rewrite (proj2 (beq_false _ x c)) by (intros ->; apply n; left; reflexivity). rewrite IH by (intros i; apply n; right; exact i). reflexivity.
Qed.
Lemma cut_free c s : ~ In c s -> cut c s = (s, None).
Proof.
  induction s as [|x s IH]; intros n; cbn [cut]; [reflexivity|].
  rewrite (proj2 (beq_false _ x c)) by (intros ->; apply n; left; reflexivity). rewrite IH by (intros i; apply n; right; exact i). reflexivity.
Qed.
Theorem urlparse_full : forall x sc host p frag, Letter x ->
  (forall c, In c sc -> Letter c \/ Digit c \/ In c ["+"; "-"; "."]) ->
  (forall c, In c host -> ~ In c ["/"; "?"; "#"]) -> (forall c, In c p -> ~ In c ["?"; "#"]) ->
  urlparse ((x :: sc) ++ ":" :: "/" :: "/" :: host ++ ("/" :: p) ++ "#" :: frag) = {| netloc := host; path := "/" :: p; fragment := frag |}.
Proof.
  intros x sc host p frag hx hs hh hp.
  assert (S : forall c, In c (x :: sc) -> scheme_char c = true /\ c <> "#" /\ c <> "?" /\ c <> ":").
  { intros c i. assert (h : Letter c \/ Digit c \/ In c ["+"; "-"; "."]) by (destruct i as [<-|i]; [left; exact hx|exact (hs c i)]).
    destruct h as [[h|h]|[h|h]]; unfold scheme_char, is_lower, is_upper, is_digit, in_range.
    - split; [|repeat split; intros ->; cbn in h; lia]. rewrite (proj2 (Nat.leb_le 65 _) (proj1 h)), (proj2 (Nat.leb_le _ 90) (proj2 h)). cbn. rewrite orb_true_r. reflexivity.
    - split; [|repeat split; intros ->; cbn in h; lia]. rewrite (proj2 (Nat.leb_le 97 _) (proj1 h)), (proj2 (Nat.leb_le _ 122) (proj2 h)). reflexivity.
    - split; [|repeat split; unfold Digit in h; intros ->; cbn in h; lia]. rewrite (proj2 (Nat.leb_le 48 _) (proj1 h)), (proj2 (Nat.leb_le _ 57) (proj2 h)). cbn. rewrite !orb_true_r. reflexivity.
    - cbn in h. destruct h as [<-|[<-|[<-|[]]]]; repeat split; discriminate. }
  assert (X : is_lower x || is_upper x = true).
  { unfold is_lower, is_upper, in_range. destruct hx as [h|h].
    - rewrite (proj2 (Nat.leb_le 65 _) (proj1 h)), (proj2 (Nat.leb_le _ 90) (proj2 h)). apply orb_true_r.
    - rewrite (proj2 (Nat.leb_le 97 _) (proj1 h)), (proj2 (Nat.leb_le _ 122) (proj2 h)). reflexivity. }
  set (base := (x :: sc) ++ ":" :: "/" :: "/" :: host ++ ("/" :: p)).
  assert (B : forall c, In c base -> c <> "#" /\ c <> "?").
  { intros c i. unfold base in i. apply in_app_or in i. destruct i as [i|[<-|[<-|[<-|i]]]]; try (split; discriminate).
    - destruct (S c i) as (_ & h1 & h2 & _). auto.
    - apply in_app_or in i. destruct i as [i|[<-|i]]; [|split; discriminate|].
      + specialize (hh c i). split; intros ->; apply hh; cbn; tauto.
      + specialize (hp c i). split; intros ->; apply hp; cbn; tauto. }
  replace ((x :: sc) ++ ":" :: "/" :: "/" :: host ++ ("/" :: p) ++ "#" :: frag) with (base ++ "#" :: frag).
  2:{ unfold base. cbn [app]. f_equal. rewrite <- app_assoc. cbn [app]. rewrite <- app_assoc. reflexivity. }
  unfold urlparse. rewrite cut_at by (intros i; apply (proj1 (B _ i)); reflexivity). cbn [fst snd].
  rewrite (cut_free "?" base) by (intros i; apply (proj2 (B _ i)); reflexivity). cbn [fst].
  unfold base. rewrite cut_at by (intros i; destruct (S _ i) as (_ & _ & _ & q); apply q; reflexivity). cbn [app].
  assert (F : forallb scheme_char (x :: sc) = true) by (apply forallb_forall; intros c i; apply (S c i)). rewrite F, X. cbn [andb].
  change (host ++ "/" :: p) with (host ++ "/" :: p). rewrite cut_at; [reflexivity|]. intros i. apply (hh _ i). left. reflexivity.
Qed.
Print Assumptions urlparse_full.

(** the canonical name of an address *)
Lemma replace_underscored w : replace_char "-" "_" w = underscored w.
Proof. apply map_ext. intros c. destruct (Ascii.eqb_spec c "-") as [->|n]; [reflexivity|]. rewrite (proj2 (beq_false _ _ _) n). reflexivity. Qed.
Lemma ljoin_snoc ws w : ws <> [] -> ljoin ["."] (ws ++ [w]) = ljoin ["."] ws ++ "." :: w.
Proof.
  induction ws as [|a ws IH]; intros n; [congruence|]. destruct ws as [|b ws]; [reflexivity|].
  change ((a :: b :: ws) ++ [w]) with (a :: (b :: ws) ++ [w]). rewrite ljoin_cons by discriminate. rewrite IH by discriminate.
  rewrite (ljoin_cons ["."] a (b :: ws)) by discriminate. rewrite <- !app_assoc. reflexivity.
Qed.
Lemma add_last_join cn x : cn <> [] -> ljoin ["."] (add_last cn x) = ljoin ["."] cn ++ x.
Proof.
  intros n. unfold add_last. destruct (exists_last n) as (l & w & ->). rewrite removelast_last, last_last. destruct l as [|a l]; [reflexivity|].
  rewrite !ljoin_snoc by discriminate. rewrite <- app_assoc. reflexivity.
Qed.
Lemma path_fold ps : forall cn, cn <> [] -> ljoin ["."] (fold_left path_step ps cn) = ljoin ["."] cn ++ concat (map joined ps).
Proof.
  induction ps as [|p ps IH]; intros cn n; cbn [fold_left map concat]; [rewrite app_nil_r; reflexivity|].
  destruct p as [|c p]; [exact (IH cn n)|]. unfold path_step at 2. rewrite (proj2 (beq_false _ cn []) n), replace_underscored. cbn [negb]. rewrite andb_true_r.
  unfold joined at 1, numbered. fold (in_range 48 57 c). change (in_range 48 57 c) with (is_digit c). destruct (is_digit c).
  - rewrite IH; [|unfold add_last; destruct (removelast cn); discriminate]. rewrite add_last_join by exact n. rewrite <- app_assoc. reflexivity.
  - rewrite IH; [|destruct cn; discriminate]. rewrite ljoin_snoc by exact n. rewrite <- app_assoc. reflexivity.
Qed.
Lemma path_fold_numbers ds : (forall d, In d ds -> d = [] \/ numbered d = true) -> fold_left path_step ds [] = [].
Proof.
  induction ds as [|d ds IH]; intros h; [reflexivity|]. cbn [fold_left]. assert (e : path_step [] d = []).
  { destruct (h d (or_introl eq_refl)) as [->|q]; [reflexivity|]. destruct d as [|c d]; [reflexivity|]. cbn in q. fold (in_range 48 57 c) in q.
    change (is_digit c = true) in q. cbn [path_step]. rewrite q. reflexivity. }
  rewrite e. apply IH. intros x i. apply h. right. exact i.
Qed.
Lemma split_slashes ps : (forall p, In p ps -> ~ In "/" p) -> split_char "/" (concat (map (cons "/") ps)) = [] :: ps.
Proof.
  intros h. assert (G : forall w, ~ In "/" w -> split_char "/" (w ++ concat (map (cons "/") ps)) = w :: ps).
  { induction ps as [|p ps IH]; intros w nw; [cbn; rewrite app_nil_r; apply split_char_free; exact nw|]. cbn [map concat app].
    rewrite split_char_app by exact nw. f_equal. apply IH; [intros q i; apply h; right; exact i|]. apply h. left. reflexivity. }
  exact (G [] (fun i => i)).
Qed.
Definition address (scheme host : str) (ps : list str) (frag : str) : str :=
  scheme ++ ":" :: "/" :: "/" :: host ++ concat (map (cons "/") ps) ++ "#" :: frag.
Definition Scheme (s : str) : Prop := exists x sc, s = x :: sc /\ Letter x /\ forall c, In c sc -> Letter c \/ Digit c \/ In c ["+"; "-"; "."].
Lemma urlparse_address s host ps frag : Scheme s -> ps <> [] ->
  (forall w, In w (host :: ps) -> forall c, In c w -> ~ In c ["/"; "?"; "#"]) ->
  urlparse (address s host ps frag) = {| netloc := host; path := concat (map (cons "/") ps); fragment := frag |}.
Proof.
  intros (x & sc & -> & hx & hs) ne h. destruct ps as [|p ps]; [congruence|]. unfold address. cbn [map concat app].
  apply (urlparse_full x sc host (p ++ concat (map (cons "/") ps)) frag hx hs).
  - exact (h host (or_introl eq_refl)).
  - intros c i. apply in_app_or in i. destruct i as [i|i].
    + intros j. apply (h p (or_intror (or_introl eq_refl)) c i). right. exact j.
    + apply in_concat in i. destruct i as (w & iw & i). apply in_map_iff in iw. destruct iw as (q & <- & iq). destruct i as [<-|i].
      * cbn. intros [e|[e|[]]]; discriminate.
      * intros j. apply (h q (or_intror (or_intror iq)) c i). right. exact j.
Qed.
Theorem uri_cname_words : forall s label rest ps, Scheme s -> ps <> [] -> ~ In "." label ->
  (rest = [] \/ exists r, rest = "." :: r) -> label ++ rest <> chars "numengo.org" ->
  (forall w, In w ((label ++ rest) :: ps) -> forall c, In c w -> ~ In c ["/"; "?"; "#"]) ->
  uri_to_cname (address s (label ++ rest) ps []) = underscored label ++ concat (map joined ps).
Proof.
  intros s label rest ps hs ne nl hr nm h. unfold uri_to_cname. rewrite urlparse_address by assumption. cbn [netloc path fragment].
  unfold ms_netloc. rewrite (proj2 (beq_false _ _ _) nm). rewrite split_slashes.
  2:{ intros p i j. apply (h p (or_intror i) _ j). left. reflexivity. }
  rewrite path_fold by discriminate. cbn [ljoin map concat joined app]. f_equal. rewrite replace_underscored. f_equal.
  destruct hr as [->|(r & ->)]; [rewrite app_nil_r, split_char_free by exact nl; reflexivity|]. rewrite split_char_app by exact nl. reflexivity.
Qed.
Print Assumptions uri_cname_words.
Theorem uri_cname_domain : forall s ds p ps, Scheme s -> p <> [] -> numbered p = false -> (forall d, In d ds -> d = [] \/ numbered d = true) ->
  (forall w, In w (ds ++ p :: ps) -> forall c, In c w -> ~ In c ["/"; "?"; "#"]) ->
  uri_to_cname (address s (chars "numengo.org") (ds ++ p :: ps) []) = underscored p ++ concat (map joined ps).
Proof.
  intros s ds p ps hs np nn hd h. unfold uri_to_cname. rewrite urlparse_address.
  2:{ exact hs. } 2:{ destruct ds; discriminate. }
  2:{ intros w [<-|i]; [|exact (h w i)]. intros c i. cbn in i. decompose [or] i; subst; cbn; intuition discriminate. }
  cbn [netloc path fragment]. unfold ms_netloc. rewrite beq_refl. rewrite split_slashes.
  2:{ intros q i j. apply (h q i _ j). left. reflexivity. }
  change (fold_left path_step ([] :: ds ++ p :: ps) []) with (fold_left path_step (ds ++ p :: ps) []).
  rewrite fold_left_app, path_fold_numbers by exact hd. destruct p as [|c p]; [congruence|]. cbn [fold_left]. unfold path_step at 2. cbn in nn.
  fold (in_range 48 57 c) in nn. change (is_digit c = false) in nn. rewrite nn. cbn [andb]. rewrite path_fold by discriminate. cbn [app ljoin].
  rewrite replace_underscored. reflexivity.
Qed.
Print Assumptions uri_cname_domain.
Example uri_cname_words_nontrivial :
  uri_to_cname (chars "git+https://my-host.org/some-thing/2-0/x#") = chars "my_host.some_thing_2_0.x" /\
  uri_to_cname (chars "https://numengo.org/1/ngo-schema/draft-05#") = chars "ngo_schema.draft_05".
Proof. split; vm_compute; reflexivity. Qed.

Theorem clean_brackets_refuted : exists name c, In c (clean_js_name name) /\ ~ (Letter c \/ Digit c \/ c = "." \/ c = "_").
Proof.
  exists (chars "a[0]"), "[". split; [right; left; reflexivity|]. unfold Letter, Digit. vm_compute. intros [[h|h]|[h|[h|h]]]; lia || discriminate.
Qed.
Print Assumptions clean_brackets_refuted.

(** * C38 *)
(** '$defs', 'properties'... steps are transparent *)
Theorem fragment_transparent : forall tags names, tags <> [] -> length tags = length names -> (forall n, In n names -> Plain n) ->
  (forall t, In t tags -> t <> [] /\ ~ In "/" t) ->
  fragment_to_cname ("/" :: ljoin ["/"] (interleave tags names)) = dotted names.
Proof.
  intros tags names ne l hn ht. apply fragment_names; [exact ne|exact l|exact hn|intros t i; apply ht; exact i|].
  destruct tags as [|t ts]; [congruence|]. apply ht. left. reflexivity.
Qed.
Print Assumptions fragment_transparent.

Section RoundTrip.
  Variables (docs : dict str pyval) (reg : dict str str) (n u : str) (names : list str).
  Hypothesis wf : dwf reg.
  Hypothesis hn : n <> [].
  Hypothesis hu : u <> [].
  Hypothesis hr : dget n reg = Some u.
  Hypothesis hne : names <> [].
  Hypothesis hp : forall x, In x names -> Plain x.
  Let cname := n ++ "." :: dotted names.
  Hypothesis hlong : forall c, In c (dkeys reg) -> Within c cname -> length c <= length n.
  Hypothesis hdoc : forall doc k, dget (uri_norm u) docs = Some doc -> HasKey doc k -> k <> [] /\ ~ In "/" k.
  Hypothesis honly : forall c' u', dget c' reg = Some u' -> c' <> n -> c' <> [] -> ~ Prefix u' u /\ ~ Prefix u u'.

  Definition id_of (tags : list str) : str := u ++ (if mem "#" u then [] else ["#"]) ++ "/" :: ljoin ["/"] (interleave tags names).

  Lemma rt_find : find_ns_by_cname docs reg cname = Some (n, u).
  Proof.
    assert (wn : Within n cname) by (right; eexists; reflexivity).
    assert (i : In n (dkeys reg)) by (eapply dget_Some_key; exact hr).
    destruct (ns_by_cname_longest docs reg cname) as (c & v & e & ev & w & m); [eauto|].
    destruct (m n i wn) as (r & ec). assert (l : length c <= length n) by (apply hlong; [eapply dget_Some_key; exact ev|exact w]).
    rewrite ec, app_length in l. destruct r as [|x r]; [|cbn [length] in l; lia]. rewrite app_nil_r in ec. subst c. rewrite e. congruence.
  Qed.
  Lemma rt_last_tag : exists t, last_tag names = Ok t /\ (t = defs \/ t = properties).
  Proof.
    assert (ip : forall x, In x (rev names) -> Plain x) by (intros x i; apply hp, in_rev, i). unfold last_tag.
    destruct (rev names) as [|y [|x [|z r]]]; try (exists defs; split; [reflexivity|left; reflexivity]).
    destruct (ip x (or_intror (or_introl eq_refl))) as [nx _]. destruct x as [|c x]; [congruence|].
    destruct (ip y (or_introl eq_refl)) as [ny _]. destruct y as [|d y]; [congruence|].
    destruct (is_upper c); [|eauto]. destruct (is_lower d); eauto.
  Qed.
  Lemma interleave_snoc tags ns t y : length tags = length ns -> interleave (tags ++ [t]) (ns ++ [y]) = interleave tags ns ++ [t; y].
  Proof. revert ns. induction tags as [|a tags IH]; intros [|b ns] l; try discriminate; [reflexivity|]. cbn [app interleave]. rewrite IH by (injection l; auto). reflexivity. Qed.
  Lemma interleave_defs ns : interleave (map (fun _ => defs) ns) ns = flat_map (fun c => [defs; c]) ns.
  Proof. induction ns as [|x ns IH]; [reflexivity|]. cbn [map interleave flat_map app]. rewrite IH. reflexivity. Qed.

  Lemma rt_id_tags cur : exists tags, length tags = length names /\
    (forall t, In t tags -> t = defs \/ t = properties \/ (exists k, t = index_name k) \/ exists doc, dget (uri_norm u) docs = Some doc /\ HasKey doc t) /\
    cname_id docs reg cname cur = Ok (id_of tags).
  Proof.
    unfold cname_id. rewrite rt_find. cbv zeta.
    assert (ef : skipn (length n) cname = "." :: dotted names) by (unfold cname; rewrite skipn_app, skipn_all, Nat.sub_diag; reflexivity).
    rewrite ef. assert (es : split_char "." ("." :: dotted names) = [] :: names).
    { change ("." :: dotted names) with ([] ++ "." :: dotted names). rewrite split_char_app by (intros []). f_equal. apply split_join; [exact hne|].
      intros w i. apply plain_no_dot, hp, i. }
    rewrite es. cbv beta iota.
    destruct (match dget (uri_norm u) docs with Some doc => option_map (fun p => u ++ (if mem "#" u then ["/"] else ["#"; "/"]) ++ slash_join p) (search names doc) | None => None end) as [id|] eqn:e.
    - destruct (dget (uri_norm u) docs) as [doc|] eqn:ed; [|discriminate]. destruct (search names doc) as [p|] eqn:ep; [|discriminate].
      cbn [option_map] in e. injection e as <-. destruct (search_shape names doc p ep) as (tags & -> & l & g). exists tags. split; [exact l|]. split.
      + intros t i. destruct (g t i) as [h|(k & ->)]; [right; right; right; eauto|right; right; left; eauto].
      + unfold id_of, slash_join. destruct (mem "#" u); reflexivity.
    - destruct (exists_last hne) as (ns & y & en). rewrite en, rev_app_distr. cbn [rev app]. rewrite rev_involutive.
      destruct rt_last_tag as (t & et & ht). rewrite en in et. rewrite et. cbn [rbind].
      destruct u as [|uc us] eqn:eu; [congruence|]. rewrite <- eu in *.
      exists (map (fun _ => defs) ns ++ [t]). split; [|split].
      + rewrite !app_length, map_length. reflexivity.
      + intros t' i. apply in_app_iff in i. assert (t' = defs \/ t' = properties) as [->| ->]; [|auto..].
        destruct i as [i|[<-|[]]]; [left; apply in_map_iff in i; destruct i as (? & <- & _); reflexivity|exact ht].
      + unfold id_of, slash_join. rewrite ?en, interleave_snoc by apply map_length. rewrite interleave_defs.
        rewrite ljoin_cons by (destruct (flat_map (fun c : str => [defs; c]) ns); discriminate). rewrite <- !app_assoc. rewrite eu. reflexivity.
  Qed.
  Lemma rt_id cur : exists tags, length tags = length names /\ (forall t, In t tags -> t <> [] /\ ~ In "/" t) /\
    cname_id docs reg cname cur = Ok (id_of tags).
  Proof.
    destruct (rt_id_tags cur) as (tags & l & g & e). exists tags. split; [exact l|]. split; [|exact e]. intros t i.
    destruct (g t i) as [->|[->|[(k & ->)|(doc & ed & h)]]]; [split; [discriminate|vm_compute; intuition discriminate]..|apply index_name_good|].
    apply (hdoc doc t ed h).
  Qed.
  Lemma rt_name tags : length tags = length names -> (forall t, In t tags -> t <> [] /\ ~ In "/" t) ->
    id_cname docs reg (id_of tags) = Some cname.
  Proof.
    intros l g. unfold id_cname. cbv zeta.
    assert (pu : Prefix u (id_of tags)) by (eexists; reflexivity).
    assert (ef : find_ns_by_uri docs reg (id_of tags) = Some (n, u)).
    { destruct (ns_by_uri_prefix docs reg (id_of tags) wf) as (c & v & e & ev & p & mx); [eauto|].
      destruct (eq_dec c n) as [->|ne]; [congruence|].
      assert (nc : c <> []) by (intros ->; specialize (mx n u hr pu); inversion mx; congruence).
      destruct (honly c v ev ne nc) as [n1 n2]. exfalso.
      destruct pu as (r & er), p as (r' & er'). rewrite er in er'. clear -er' n1 n2. revert v er' n1 n2. induction u as [|x u' IH]; intros v e n1 n2.
      - apply n2. exists v. reflexivity.
      - destruct v as [|y v]; [apply n1; exists (x :: u'); reflexivity|]. cbn [app] in e. injection e as -> e.
        apply (IH v e); [intros (z & ->); apply n1; exists z; reflexivity|intros (z & ->); apply n2; exists z; reflexivity]. }
    rewrite ef. destruct u as [|uc us] eqn:eu; [congruence|]. rewrite <- eu in *. rewrite (proj2 (is_prefix_spec u (id_of tags)) pu).
    assert (esk : skipn (length u) (id_of tags) = (if mem "#" u then [] else ["#"]) ++ "/" :: ljoin ["/"] (interleave tags names)).
    { unfold id_of. rewrite skipn_app, skipn_all, Nat.sub_diag. reflexivity. }
    rewrite esk.
    assert (htags : tags <> []) by (destruct tags; [destruct names; [congruence|discriminate]|discriminate]).
    assert (fr : fragment_to_cname ("/" :: ljoin ["/"] (interleave tags names)) = dotted names) by (apply fragment_transparent; assumption).
    destruct (join_ends tags names hne l hp) as (x & c & ej & nc).
    assert (st : strip ["#"] ((if mem "#" u then [] else ["#"]) ++ "/" :: ljoin ["/"] (interleave tags names)) = "/" :: ljoin ["/"] (interleave tags names)).
    { rewrite ej. destruct (mem "#" u); cbn [app]; [exact (strip_noop [] c x nc)|exact (strip_hash_front [] x c nc)]. }
    rewrite st, fr.
    destruct ((if mem "#" u then [] else ["#"]) ++ "/" :: ljoin ["/"] (interleave tags names)) as [|a b] eqn:ea.
    - destruct (mem "#" u); discriminate.
    - clear ea. destruct n as [|nc0 n0] eqn:en; [congruence|]. reflexivity.
  Qed.
End RoundTrip.

(** the id of a name in a registered namespace gives the name back. [n] is the most specific namespace of the name, no other
    namespace, the unnamed one apart, has a uri that starts with [u] or with which [u] starts, and the keys of the namespace's document, if it is
    loaded, are not empty and have no slash *)
Theorem name_id_round_trip : forall docs reg n u names cur, dwf reg -> n <> [] -> u <> [] -> dget n reg = Some u ->
  names <> [] -> (forall x, In x names -> Plain x) ->
  (forall c, In c (dkeys reg) -> Within c (n ++ "." :: dotted names) -> length c <= length n) ->
  (forall doc k, dget (uri_norm u) docs = Some doc -> HasKey doc k -> k <> [] /\ ~ In "/" k) ->
  (forall c' u', dget c' reg = Some u' -> c' <> n -> c' <> [] -> ~ Prefix u' u /\ ~ Prefix u u') ->
  exists id, cname_id docs reg (n ++ "." :: dotted names) cur = Ok id /\ Prefix u id /\ id_cname docs reg id = Some (n ++ "." :: dotted names).
Proof.
  intros docs reg n u names cur wf hn hu hr hne hp hl hd ho.
  destruct (rt_id docs reg n u names hu hr hne hp hl hd ho cur) as (tags & l & g & e). exists (id_of u names tags).
  split; [exact e|]. split; [eexists; reflexivity|]. apply rt_name; assumption.
Qed.
Print Assumptions name_id_round_trip.
(** when the document of the namespace is not loaded, or has nothing of that name, every name but the last is a definition, and the
    last one is a property or a definition according to its case *)
Theorem name_id_guessed : forall docs reg n u names x cur, u <> [] -> dget n reg = Some u ->
  (forall y, In y (names ++ [x]) -> Plain y) ->
  (forall c, In c (dkeys reg) -> Within c (n ++ "." :: dotted (names ++ [x])) -> length c <= length n) ->
  match dget (uri_norm u) docs with Some doc => search (names ++ [x]) doc = None | None => True end ->
  exists tag, cname_id docs reg (n ++ "." :: dotted (names ++ [x])) cur =
    Ok (u ++ (if mem "#" u then [] else ["#"]) ++ flat_map (fun y => "/" :: chars "$defs" ++ "/" :: y) names ++ "/" :: tag ++ "/" :: x) /\
  ((PropertyName (names ++ [x]) /\ tag = chars "properties") \/ (~ PropertyName (names ++ [x]) /\ tag = chars "$defs")).
Proof.
  intros docs reg n u names x cur hu hr hp hl hs.
  assert (hne : names ++ [x] <> []) by (destruct names; discriminate).
  assert (et : exists tag, last_tag (names ++ [x]) = Ok tag /\
    ((PropertyName (names ++ [x]) /\ tag = chars "properties") \/ (~ PropertyName (names ++ [x]) /\ tag = chars "$defs"))).
  { unfold last_tag. rewrite rev_app_distr. cbn [rev app].
    assert (px : Plain x) by (apply hp; apply in_or_app; right; left; reflexivity).
    assert (shape : forall T, PropertyName (names ++ [x]) -> (exists l, names = l ++ [T]) -> (exists l, names = l ++ [T] /\ l <> []) /\ Capitalised T /\ LowerCase x).
    { intros T (a & l & T' & p & e & hT & hpp) (l' & ->). rewrite <- app_assoc in e. cbn [app] in e.
      change (a :: l ++ [T'; p]) with ((a :: l) ++ [T'; p]) in e.
      assert (e' : (l' ++ [T]) ++ [x] = ((a :: l) ++ [T']) ++ [p]) by (rewrite <- !app_assoc; exact e).
      apply app_inj_tail in e'. destruct e' as [e' ->]. apply app_inj_tail in e'. destruct e' as [-> ->].
      split; [exists (a :: l); split; [reflexivity|discriminate]|split; assumption]. }
    destruct (rev names) as [|T [|z r]] eqn:er.
    - exists defs. split; [reflexivity|]. right. split; [|reflexivity]. intros (a & l & T' & p & e & _).
      assert (en : names = []) by (rewrite <- (rev_involutive names), er; reflexivity). subst names. destruct l as [|? [|? ?]]; discriminate.
    - exists defs. split; [reflexivity|]. right. split; [|reflexivity]. intros h.
      assert (en : names = [] ++ [T]) by (rewrite <- (rev_involutive names), er; reflexivity).
      destruct (shape T h (ex_intro _ [] en)) as ((l & e & nl) & _). rewrite en in e. apply app_inj_tail in e. destruct e as [<- _]. congruence.
    - assert (en : names = rev (z :: r) ++ [T]) by (rewrite <- (rev_involutive names), er; reflexivity).
      assert (pT : Plain T) by (apply hp; rewrite en; apply in_or_app; left; apply in_or_app; right; left; reflexivity).
      destruct pT as [nT _], px as [nx _]. destruct T as [|c T]; [congruence|]. destruct x as [|d x]; [congruence|].
      assert (build : Capitalised (c :: T) -> LowerCase (d :: x) -> PropertyName (names ++ [d :: x])).
      { intros h1 h2. destruct (rev (z :: r)) as [|a l] eqn:ez; [cbn [rev] in ez; destruct (rev r); discriminate|].
        exists a, l, (c :: T), (d :: x). rewrite en, <- app_assoc. split; [reflexivity|split; assumption]. }
      assert (up : is_upper c = true <-> Capitalised (c :: T)).
      { unfold is_upper. rewrite in_range_spec. split; [intros h; exists c, T; split; [reflexivity|exact h]|intros (c' & r' & e & h); injection e as -> ->; exact h]. }
      assert (lo : is_lower d = true <-> LowerCase (d :: x)).
      { unfold is_lower. rewrite in_range_spec. split; [intros h; exists d, x; split; [reflexivity|exact h]|intros (c' & r' & e & h); injection e as -> ->; exact h]. }
      destruct (is_upper c) eqn:eu.
      + destruct (is_lower d) eqn:el; eexists; (split; [reflexivity|]); [left; split; [apply build; [apply up|apply lo]; reflexivity|reflexivity]|].
        right. split; [|reflexivity]. intros h. destruct (shape _ h (ex_intro _ _ en)) as (_ & _ & h2). apply lo in h2. discriminate.
      + eexists. split; [reflexivity|]. right. split; [|reflexivity]. intros h. destruct (shape _ h (ex_intro _ _ en)) as (_ & h1 & _). apply up in h1. discriminate. }
  destruct et as (tag & et & cases). exists tag. split; [|exact cases].
  unfold cname_id. rewrite (rt_find docs reg n u (names ++ [x]) hr hl). cbv zeta.
  assert (ef : skipn (length n) (n ++ "." :: dotted (names ++ [x])) = "." :: dotted (names ++ [x])) by (rewrite skipn_app, skipn_all, Nat.sub_diag; reflexivity).
  rewrite ef. assert (es : split_char "." ("." :: dotted (names ++ [x])) = [] :: names ++ [x]).
  { change ("." :: dotted (names ++ [x])) with ([] ++ "." :: dotted (names ++ [x])). rewrite split_char_app by (intros []). f_equal. apply split_join; [exact hne|].
    intros w i. apply plain_no_dot, hp, i. }
  rewrite es. cbv beta iota.
  assert (en : match dget (uri_norm u) docs with Some doc => option_map (fun p => u ++ (if mem "#" u then ["/"] else ["#"; "/"]) ++ slash_join p) (search (names ++ [x]) doc) | None => None end = None).
  { destruct (dget (uri_norm u) docs) as [doc|]; [|reflexivity]. rewrite hs. reflexivity. }
  rewrite en, rev_app_distr. cbn [rev app]. rewrite rev_involutive, et. cbn [rbind].
  destruct u as [|uc us] eqn:eu; [congruence|]. rewrite <- eu in *. f_equal. unfold slash_join.
  assert (j : forall l a b, ljoin ["/"] (a :: flat_map (fun c => [defs; c]) l ++ b) = a ++ flat_map (fun y => "/" :: defs ++ "/" :: y) l ++ match b with [] => [] | _ => "/" :: ljoin ["/"] b end).
  { clear. induction l as [|y l IH]; intros a b; cbn [flat_map app].
    - destruct b as [|b0 b]; [cbn [ljoin]; rewrite ?app_nil_r; reflexivity|]. rewrite ljoin_cons by discriminate. reflexivity.
    - rewrite ljoin_cons by discriminate. rewrite ljoin_cons by discriminate. rewrite IH. cbn [app]. rewrite <- ?app_assoc. cbn [app]. rewrite <- ?app_assoc. reflexivity. }
  rewrite (j names _ [tag; x]). rewrite ljoin_cons by discriminate. cbn [ljoin app]. rewrite <- !app_assoc. reflexivity.
Qed.
Print Assumptions name_id_guessed.
(** the name of the uri of a namespace is the name of the namespace, if no other namespace has a uri with which it starts *)
Theorem namespace_name : forall docs reg n u, dwf reg -> u <> [] -> dget n reg = Some u ->
  (forall c' u', dget c' reg = Some u' -> c' <> n -> ~ Prefix u' u) -> id_cname docs reg u = Some n.
Proof.
  intros docs reg n u wf hu hr ho. assert (pu : Prefix u u) by (exists []; rewrite app_nil_r; reflexivity).
  destruct (ns_by_uri_prefix docs reg u wf) as (c & v & e & ec & pv & _); [exists n, u; split; assumption|].
  assert (c = n) as ->. { destruct (eq_dec c n) as [h|h]; [exact h|]. destruct (ho c v ec h pv). }
  assert (v = u) as -> by congruence. unfold id_cname. rewrite e. destruct u as [|x u']; [congruence|].
  rewrite (proj2 (is_prefix_spec _ _) pu). rewrite skipn_all. reflexivity.
Qed.
Print Assumptions namespace_name.
Example namespace_name_case : id_cname [] sample_reg (chars "u2") = Some (chars "a.b").
Proof. reflexivity. Qed.
(** a name that is in no namespace, when the current namespace is unknown, is refused *)
Theorem name_nowhere : forall docs reg name x cur, (forall y, In y (name ++ [x]) -> Plain y) ->
  (forall c, In c (dkeys reg) -> ~ Within c (dotted (name ++ [x])) /\ ~ Within c cur) ->
  (forall u, In u (dkeys docs) -> ~ Within (uri_to_cname u) (dotted (name ++ [x])) /\ ~ Within (uri_to_cname u) cur) ->
  cname_id docs reg (dotted (name ++ [x])) cur = Err TypeError.
Proof.
  intros docs reg name x cur hp hr hd.
  assert (e1 : find_ns_by_cname docs reg (dotted (name ++ [x])) = None) by (apply ns_by_cname_none; split; intros; [apply hr|apply hd]; assumption).
  assert (e2 : find_ns_by_cname docs reg cur = None) by (apply ns_by_cname_none; split; intros; [apply hr|apply hd]; assumption).
  assert (ne : name ++ [x] <> []) by (destruct name; discriminate).
  assert (es : split_char "." (dotted (name ++ [x])) = name ++ [x]).
  { unfold dotted. apply split_join; [exact ne|]. intros y i. apply plain_no_dot, hp, i. }
  assert (hc : match name ++ [x] with [] :: r => r | l => l end = name ++ [x]).
  { destruct (name ++ [x]) as [|[|c w] r] eqn:en; try reflexivity. exfalso. apply (proj1 (hp [] (or_introl eq_refl))). reflexivity. }
  unfold cname_id. rewrite e1, e2, es, hc. cbn [option_map].
  destruct (rt_last_tag (name ++ [x]) hp) as (t & et & _). rewrite et, rev_app_distr. cbn [rev app rbind].
  destruct (dotted (name ++ [x])); reflexivity.
Qed.
Print Assumptions name_nowhere.
Example name_nowhere_case : cname_id [] (tl sample_reg) (chars "x.Y") (chars "z") = Err TypeError.
Proof. reflexivity. Qed.
Definition sample_docs : dict str pyval := [(chars "https://x.org/doc", VDict [("$defs"%string, VDict [("T"%string, VDict [("properties"%string, VDict [("p"%string, VNone)])])])])].
Definition sample_reg2 : dict str str := [([], chars "#"); (chars "x.doc", chars "https://x.org/doc"); (chars "y", chars "https://y.org/d")].
Example round_trip_case :
  cname_id sample_docs sample_reg2 (chars "x.doc.T.p") [] = Ok (chars "https://x.org/doc#/$defs/T/properties/p") /\
  id_cname sample_docs sample_reg2 (chars "https://x.org/doc#/$defs/T/properties/p") = Some (chars "x.doc.T.p") /\
  cname_id sample_docs sample_reg2 (chars "y.A.B.c") [] = Ok (chars "https://y.org/d#/$defs/A/$defs/B/properties/c") /\
  id_cname sample_docs sample_reg2 (chars "https://y.org/d#/$defs/A/$defs/B/properties/c") = Some (chars "y.A.B.c").
Proof. repeat split. Qed.

(** the same through the public methods of a manager that has answered nothing yet, when the namespace is not that of the
    current document *)
Theorem manager_round_trip : forall m n u names, m_ids m = [] -> m_names m = [] ->
  dwf (full_registry m) -> n <> [] -> hd " " n <> "." -> u <> [] -> dget n (full_registry m) = Some u ->
  names <> [] -> (forall x, In x names -> Plain x) ->
  (forall c, In c (dkeys (full_registry m)) -> Within c (n ++ "." :: dotted names) -> length c <= length n) ->
  (forall doc k, dget (uri_norm u) (m_docs m) = Some doc -> HasKey doc k -> k <> [] /\ ~ In "/" k) ->
  (forall c' u', dget c' (full_registry m) = Some u' -> c' <> n -> c' <> [] -> ~ Prefix u' u /\ ~ Prefix u u') ->
  hd [] (split_char "#" (m_cur_uri m)) <> hd [] (split_char "#" u) ->
  exists id m', get_cname_id m (n ++ "." :: dotted names) = (Ok id, m') /\
    fst (get_id_cname m' id false) = Ok (Some (n ++ "." :: dotted names)).
Proof.
  intros m n u names e1 e2 wf hn hd0 hu hr hne hp hl hdoc ho hc.
  destruct (rt_id (m_docs m) (full_registry m) n u names hu hr hne hp hl hdoc ho (m_cur m)) as (tags & l & g & e).
  exists (id_of u names tags). unfold get_cname_id.
  assert (ea : absolute (m_cur m) (n ++ "." :: dotted names) = Ok (n ++ "." :: dotted names)).
  { unfold absolute. destruct n as [|c n]; [congruence|]. cbn [hd app] in *. destruct c as [[] [] [] [] [] [] [] []]; reflexivity || (exfalso; apply hd0; reflexivity). }
  rewrite ea, e2. unfold lru_call at 1. cbn [dget]. cbn [fst snd]. rewrite e. cbn [fst snd rbind].
  assert (np : is_prefix (hd [] (split_char "#" (m_cur_uri m)) ++ ["#"]) (id_of u names tags) = false).
  { apply is_prefix_false. intros r er. apply hc. rewrite <- app_assoc in er. cbn [app] in er. unfold id_of in er.
    set (d := hd [] (split_char "#" (m_cur_uri m))) in *.
    assert (nd : ~ In "#" d).
    { unfold d. pose proof (split_words_free "#" (m_cur_uri m)) as f. destruct (split_char "#" (m_cur_uri m)) as [|w ws]; [intros []|]. apply f. left. reflexivity. }
    assert (E : forall x, hd [] (split_char "#" (u ++ (if mem "#" u then [] else ["#"]) ++ x)) = hd [] (split_char "#" u)).
    { intros x. destruct (mem_spec EqDec_ascii "#" u) as [i|ni].
      - apply in_split in i. destruct i as (a & b & ->). cbn [app]. clear.
        assert (f : forall a b c, hd [] (split_char "#" (a ++ "#" :: b)) = hd [] (split_char "#" (a ++ "#" :: c))).
        { clear. induction a as [|y a IH]; intros b c; cbn [app split_char].
          - destruct (split_char "#" b) eqn:e1; [destruct (split_char_nonempty _ _ e1)|]. destruct (split_char "#" c) eqn:e2; [destruct (split_char_nonempty _ _ e2)|]. reflexivity.
          - specialize (IH b c). destruct (split_char "#" (a ++ "#" :: b)) eqn:e1; [destruct (split_char_nonempty _ _ e1)|].
            destruct (split_char "#" (a ++ "#" :: c)) eqn:e2; [destruct (split_char_nonempty _ _ e2)|]. cbn [hd] in IH. subst.
            destruct (beq y "#"); reflexivity. }
        rewrite <- app_assoc. cbn [app]. apply f.
      - cbn [app]. rewrite (split_char_app "#" u x ni), (split_char_free "#" u ni). reflexivity. }
    rewrite <- (E ("/" :: ljoin ["/"] (interleave tags names))), er. rewrite split_char_app by exact nd. reflexivity. }
  eexists. split; [rewrite np; reflexivity|]. unfold get_id_cname. cbn [m_ids m_docs m_cur]. rewrite e1. unfold lru_call. cbn [dget fst snd].
  change (full_registry {| m_local := _; m_parents := _; m_builder := _; m_docs := _; m_cur := _; m_cur_uri := _; m_ids := _; m_names := _ |}) with (full_registry m).
  cbn [fst rbind]. rewrite (rt_name (m_docs m) (full_registry m) n u names); auto.
Qed.
Print Assumptions manager_round_trip.

(** relative name of a type of the current namespace *)
Theorem relative_name : forall m ref rest, m_cur m <> [] -> m_ids m = [] ->
  id_cname (m_docs m) (full_registry m) ref = Some (m_cur m ++ "." :: rest) ->
  fst (get_id_cname m ref true) = Ok (Some rest).
Proof.
  intros m ref rest hc e1 e. unfold get_id_cname. rewrite e1. unfold lru_call. cbn [dget fst snd]. rewrite e. cbn [fst rbind].
  destruct (m_cur m) as [|c cur] eqn:ec; [congruence|]. rewrite <- ec in *. rewrite (proj2 (is_prefix_spec _ _)) by (eexists; reflexivity).
  rewrite skipn_app, skipn_all, Nat.sub_diag. cbn [skipn app]. change ("." :: rest) with ([] ++ "." :: rest). rewrite split_char_app by (intros []).
  f_equal. f_equal. clear. induction rest as [|x rest IH]; [reflexivity|]. cbn [split_char].
  destruct (split_char "." rest) as [|w ws] eqn:ew; [destruct (split_char_nonempty _ _ ew)|].
  destruct (beq_spec EqDec_ascii x ".") as [->|n].
  - rewrite ljoin_cons by discriminate. rewrite IH. reflexivity.
  - destruct ws as [|w2 ws]; cbn [ljoin] in *; rewrite <- IH; reflexivity.
Qed.
Print Assumptions relative_name.
(** a name that starts with dots is relative to the current namespace: one dot is the namespace itself, each further dot one
    level up *)
Theorem absolute_name : forall levels up name, (forall w, In w (levels ++ up) -> ~ In "." w) -> levels <> [] -> name <> [] -> hd "." name <> "." ->
  absolute (dotted (levels ++ up)) (repeat "." (S (length up)) ++ name) = Ok (dotted levels ++ "." :: name).
Proof.
  intros levels up name hw ne hn hdn. cbn [repeat app absolute]. unfold dotted at 1. rewrite split_join; [|destruct levels; [congruence|discriminate]|exact hw].
  assert (pd : forall up lv, lv <> [] -> pop_dots (lv ++ up) (repeat "." (length up) ++ name) = Ok (lv, name)).
  { clear -hn hdn. induction up as [|x up IH] using rev_ind; intros lv ne.
    - rewrite app_nil_r. cbn [length repeat app]. destruct name as [|c name]; [congruence|]. cbn [pop_dots hd] in *.
      rewrite (proj2 (beq_false _ _ _) hdn). reflexivity.
    - rewrite app_length. cbn [length]. rewrite Nat.add_1_r. cbn [repeat app pop_dots]. rewrite beq_refl.
      destruct (lv ++ up ++ [x]) eqn:e; [destruct lv; [congruence|discriminate]|]. rewrite <- e, app_assoc, removelast_last. apply IH. exact ne. }
  rewrite pd by exact ne. cbn [rbind fst snd]. f_equal. unfold dotted. clear -ne. induction levels as [|w ws IH]; [congruence|].
  destruct ws as [|w2 ws]; [reflexivity|]. cbn [app]. rewrite (ljoin_cons _ w (w2 :: ws)) by discriminate. rewrite <- !app_assoc.
  rewrite <- IH by discriminate. reflexivity.
Qed.
Print Assumptions absolute_name.
Example absolute_case : absolute (chars "a.b.c") (chars ".T") = Ok (chars "a.b.c.T") /\ absolute (chars "a.b.c") (chars "...T") = Ok (chars "a.T").
Proof. split; reflexivity. Qed.

(** deviations *)
(** no dot between the namespace and the fragment's name when a whole uri is converted *)
Theorem uri_cname_dot_refuted : exists d f, uri_to_cname (d ++ "#" :: f) <> uri_to_cname d ++ "." :: fragment_to_cname f.
Proof. exists (chars "https://numengo.org/a"), (chars "/$defs/T"). vm_compute. discriminate. Qed.
Print Assumptions uri_cname_dot_refuted.
(** the relative name of a type of another namespace can be the name of the current namespace *)
Theorem relative_name_refuted : exists m ref cname, id_cname (m_docs m) (full_registry m) ref = Some cname /\ ~ Within (m_cur m) cname /\
  fst (get_id_cname m ref true) = Ok (Some (m_cur m)).
Proof.
  exists {| m_local := [([], chars "u1"); (chars "a.b", chars "u1"); (chars "a.bc", chars "u2")]; m_parents := []; m_builder := []; m_docs := [];
            m_cur := chars "a.b"; m_cur_uri := chars "u1"; m_ids := []; m_names := [] |}, (chars "u2#/$defs/T"), (chars "a.bc.T").
  split; [reflexivity|]. split; [|reflexivity]. intros [h|(r & h)]; vm_compute in h; discriminate.
Qed.
Print Assumptions relative_name_refuted.
(** in the current namespace the round trip loses the namespace *)
Theorem current_round_trip_refuted : exists m cname id m' cname', get_cname_id m cname = (Ok id, m') /\
  fst (get_id_cname m' id false) = Ok (Some cname') /\ cname' <> cname.
Proof.
  exists {| m_local := [([], chars "u1"); (chars "a", chars "u1")]; m_parents := []; m_builder := []; m_docs := [];
            m_cur := chars "a"; m_cur_uri := chars "u1"; m_ids := []; m_names := [] |}, (chars "a.T"). do 3 eexists. split; [reflexivity|].
  split; [reflexivity|]. vm_compute. discriminate.
Qed.
Print Assumptions current_round_trip_refuted.
(** answers are memoised: a namespace registered after a first question is ignored for that question *)
Theorem memoised_name_refuted : exists m m1 ref, let m2 := snd (get_id_cname m ref false) in
  add_ns m2 (chars "https://x.org/doc") (Some (chars "x")) = Ok m1 /\
  id_cname (m_docs m1) (full_registry m1) ref = Some (chars "x.T") /\
  fst (get_id_cname m1 ref false) <> Ok (Some (chars "x.T")).
Proof.
  exists (new_mgr [] [] []). eexists. exists (chars "https://x.org/doc#/$defs/T"). cbv zeta. split; [reflexivity|]. split; [reflexivity|]. vm_compute. discriminate.
Qed.
Print Assumptions memoised_name_refuted.
