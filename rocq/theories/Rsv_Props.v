(** Properties of the resolvers of references (C73). *)
From Verif Require Import Rsv_Model Rsv_Spec.
Local Open Scope char_scope. Local Open Scope list_scope.

Lemma nth_replaced {A} (l : list A) i j (x y : A) : nth_error l i = Some y ->
  nth_error (firstn i l ++ x :: skipn (S i) l) j = if Nat.eq_dec i j then Some x else nth_error l j.
Proof.
  intros e. assert (li : i < length l) by (apply nth_error_Some; congruence).
  assert (lf : length (firstn i l) = i) by (rewrite firstn_length; lia).
  destruct (Nat.eq_dec i j) as [<-|ne].
  - rewrite nth_error_app2, lf, Nat.sub_diag by lia. reflexivity.
  - destruct (Nat.lt_ge_cases j i) as [h|h].
    + rewrite nth_error_app1 by lia. rewrite <- (firstn_skipn i l) at 2. rewrite nth_error_app1 by lia. reflexivity.
    + rewrite nth_error_app2, lf by lia. destruct (j - i) as [|k] eqn:f; [lia|]. cbn [nth_error].
      rewrite <- (firstn_skipn (S i) l) at 2. rewrite nth_error_app2; rewrite firstn_length.
      * f_equal. lia.
      * lia.
Qed.
Lemma urldefrag_join u f : ~ In "#" u -> urldefrag (u ++ "#" :: f) = (u, f).
Proof.
  induction u as [|c u IH]; intros n; cbn [app urldefrag].
  - reflexivity.
  - destruct (beq c "#") eqn:b; [apply beq_true in b; subst; exfalso; apply n; left; reflexivity|].
    rewrite IH by (intros i; apply n; right; exact i). reflexivity.
Qed.
Lemma urldefrag_plain u : ~ In "#" u -> urldefrag u = (u, []).
Proof.
  induction u as [|c u IH]; intros n; cbn [urldefrag]; [reflexivity|].
  destruct (beq c "#") eqn:b; [apply beq_true in b; subst; exfalso; apply n; left; reflexivity|].
  rewrite IH by (intros i; apply n; right; exact i). reflexivity.
Qed.

Section Props.
  Variable norm : str -> str.
  Variable urljoin : str -> str -> str.
  Variable remote : str -> res pyval.
  Variable default_uri : str.
  Variables size rsize : nat.
  Notation step := (rs_step norm urljoin remote default_uri size rsize).
  Notation run := (rs_run norm urljoin remote default_uri size rsize).
  Notation st w := (store (w_docs w)).

  Lemma resolve_store s u : store (fst (doc_step norm size s (Resolve u))) = store s.
  Proof. reflexivity. Qed.
  Lemma create_store uri schema s : store s <> [] -> forall k, dget k (store (fst (rs_create norm default_uri size uri schema s))) = dget k (store s).
  Proof.
    intros ne k. unfold rs_create. set (u := match uri with [] => _ | _ => _ end).
    destruct (dget (norm (fst (urldefrag u))) (store s)) as [d|] eqn:e.
    - cbn [rs_init fst store]. rewrite dget_dset. destruct (eq_dec k _) as [->|_]; [symmetry; exact e|reflexivity].
    - destruct schema as [v|].
      + cbn [snd fst]. destruct (store s) as [|p q] eqn:f; [contradiction|]. cbn [rs_init fst store]. reflexivity.
      + destruct (snd (doc_step norm size s (Resolve u))) as [[v|x]|] eqn:f; [|reflexivity|reflexivity].
        rewrite resolve_store. destruct (store s) as [|p q] eqn:g; [contradiction|]. cbn [rs_init fst store]. reflexivity.
  Qed.
  Lemma fetch_store ref r sh k d : dget k (snd (fst (rs_fetch norm urljoin remote rsize ref r sh))) = Some d ->
    dget k sh = Some d \/ (dget k sh = None /\ exists url, k = norm url /\ remote url = Ok d).
  Proof.
    unfold rs_fetch. destruct (dget (urljoin (rs_base r) ref) (rs_cache r)) as [v|]; cbn [fst snd]; [auto|].
    unfold rs_read. set (uf := urldefrag _). destruct (rs_get norm (rs_store r) sh (fst uf)) as [x|] eqn:g; cbn [fst snd]; [auto|].
    destruct (remote (fst uf)) as [x|x] eqn:e; cbn [fst snd]; [|auto].
    unfold rs_put, rs_get in *. destruct (rs_store r) as [dd|]; cbn [snd]; [auto|].
    rewrite dget_dset. destruct (eq_dec k (norm (fst uf))) as [->|_]; [|auto].
    intros h. injection h as <-. right. split; [exact g|]. eauto.
  Qed.
  Lemma fetch_kept ref r sh k d : dget k sh = Some d -> dget k (snd (fst (rs_fetch norm urljoin remote rsize ref r sh))) = Some d.
  Proof.
    intros h. unfold rs_fetch. destruct (dget (urljoin (rs_base r) ref) (rs_cache r)) as [v|]; cbn [fst snd]; [exact h|].
    unfold rs_read. set (uf := urldefrag _). destruct (rs_get norm (rs_store r) sh (fst uf)) as [x|] eqn:g; cbn [fst snd]; [exact h|].
    destruct (remote (fst uf)) as [x|x] eqn:e; cbn [fst snd]; [|exact h].
    unfold rs_put, rs_get in *. destruct (rs_store r) as [dd|]; cbn [snd]; [exact h|].
    rewrite dget_dset. destruct (eq_dec k (norm (fst uf))) as [->|_]; [congruence|exact h].
  Qed.
  Lemma step_quiet w o : st w <> [] -> quiet o ->
    (forall k d, dget k (st w) = Some d -> dget k (st (fst (step w o))) = Some d) /\
    (forall k d, dget k (st (fst (step w o))) = Some d ->
       dget k (st w) = Some d \/ (dget k (st w) = None /\ exists url, k = norm url /\ remote url = Ok d)).
  Proof.
    intros ne q. destruct o as [[u d|u|u]|uri schema|i ref]; try destruct q.
    - cbn. auto.
    - unfold rs_step. assert (h := create_store uri schema (w_docs w) ne).
      destruct (rs_create norm default_uri size uri schema (w_docs w)) as [s [r|e]]; cbn [fst w_docs] in *; split; intros k d; rewrite h; auto.
    - cbn [rs_step]. destruct (nth_error (w_res w) i) as [r|]; cbn [fst w_docs store]; [|auto].
      split; intros k d; [apply fetch_kept|apply fetch_store].
  Qed.
  Lemma nonempty_get (d : dict str pyval) : d <> [] <-> exists k v, dget k d = Some v.
  Proof.
    split.
    - destruct d as [|[k v] d]; [contradiction|]. intros _. exists k, v. cbn. destruct (eq_dec k k); [reflexivity|contradiction].
    - intros (k & v & e) ->. discriminate.
  Qed.

  (** Making and using resolvers never changes a registered document, and only adds documents that were downloaded;
      provided something is registered (see [empty_store_refuted]). *)
  Theorem documents_kept : forall os w, (forall o, In o os -> quiet o) -> st w <> [] ->
    forall uri d, registered norm w uri = Some d -> registered norm (run w os) uri = Some d.
  Proof.
    unfold registered. induction os as [|o os IH]; intros w q ne uri d e; [exact e|]. cbn [rs_run].
    destruct (step_quiet w o ne (q o (or_introl eq_refl))) as (a & _).
    apply IH; [intros o' i; apply q; right; exact i| |apply a; exact e].
    apply nonempty_get in ne. destruct ne as (k & v & f). apply nonempty_get. exists k, v. apply a. exact f.
  Qed.
  Theorem documents_added : forall os w, (forall o, In o os -> quiet o) -> st w <> [] ->
    forall uri d, registered norm w uri = None -> registered norm (run w os) uri = Some d ->
    exists url, norm url = norm uri /\ remote url = Ok d.
  Proof.
    intros os w q ne uri d. unfold registered.
    assert (h : dget (norm uri) (st (run w os)) = Some d ->
      dget (norm uri) (st w) = Some d \/ exists url, norm url = norm uri /\ remote url = Ok d).
    { revert w q ne. induction os as [|o os IH]; intros w q ne; [auto|]. cbn [rs_run].
      destruct (step_quiet w o ne (q o (or_introl eq_refl))) as (a & b). intros f. apply IH in f.
      - destruct f as [f|f]; [|auto]. destruct (b _ _ f) as [g|(_ & url & g & g')]; [auto|]. right. exists url. auto.
      - intros o' i. apply q. right. exact i.
      - apply nonempty_get in ne. destruct ne as (k & v & f'). apply nonempty_get. exists k, v. apply a. exact f'. }
    intros n f. destruct (h f) as [g|g]; [congruence|exact g].
  Qed.

  (** Finding: on an empty store the private copy is empty, hence false, and the schema is written into the shared store *)
  Theorem empty_store_refuted : forall w uri v, st w = [] -> uri <> [] ->
    registered norm (fst (step w (Create uri (Some v)))) uri = Some v.
  Proof.
    intros w uri v e ne. unfold registered. cbn [rs_step]. unfold rs_create. rewrite e.
    destruct uri as [|c u]; [contradiction|]. cbn [dget snd fst]. rewrite e. cbn [rs_init fst snd w_docs store].
    apply dget_dset_same.
  Qed.

  (** ** private resolvers *)
  (** what a private resolver answers for a full url *)
  Definition answer_of (d : dict str pyval) (url : str) : res pyval := snd (rs_read norm remote (Some d) [] url).
  Lemma answer_shared d sh url : snd (rs_read norm remote (Some d) sh url) = answer_of d url.
  Proof.
    unfold answer_of, rs_read. cbn [rs_get]. destruct (dget _ d); [reflexivity|]. destruct (remote _); reflexivity.
  Qed.
  Lemma answer_put d url v url' : dget (fst (urldefrag url)) d = None -> remote (fst (urldefrag url)) = Ok v ->
    answer_of (dset (fst (urldefrag url)) v d) url' = answer_of d url'.
  Proof.
    intros n r. unfold answer_of, rs_read. cbn [rs_get]. rewrite dget_dset.
    destruct (eq_dec (fst (urldefrag url')) (fst (urldefrag url))) as [e|ne].
    - rewrite e, n, r. reflexivity.
    - destruct (dget (fst (urldefrag url')) d); [reflexivity|]. destruct (remote (fst (urldefrag url'))); reflexivity.
  Qed.

  Definition like (b : str) (d0 : dict str pyval) (r : resolver) : Prop :=
    rs_base r = b /\ (exists d, rs_store r = Some d /\ forall url, answer_of d url = answer_of d0 url) /\
    (forall url v, dget url (rs_cache r) = Some v -> answer_of d0 url = Ok v).
  Lemma lru_val (f : str -> res pyval) k c : fst (lru_call rsize f k c) = match dget k c with Some v => Ok v | None => f k end.
  Proof. unfold lru_call. destruct (dget k c); [reflexivity|]. destruct (f k); reflexivity. Qed.
  Lemma dget_first (n : nat) (k : str) (c : dict str pyval) v : dget k (firstn n c) = Some v -> dget k c = Some v.
  Proof.
    revert c. induction n as [|n IH]; intros [|[k' v'] c]; cbn [firstn dget]; try discriminate.
    destruct (eq_dec k k'); [auto|apply IH].
  Qed.
  Lemma lru_entries (f : str -> res pyval) k c k' v : dget k' (snd (lru_call rsize f k c)) = Some v ->
    dget k' c = Some v \/ (k' = k /\ f k = Ok v).
  Proof.
    unfold lru_call. destruct (dget k c) as [x|] eqn:e; cbn [snd].
    - cbn [dget]. destruct (eq_dec k' k) as [->|ne]; [intros h; injection h as <-; auto|].
      rewrite dget_ddel. destruct (eq_dec k' k); [contradiction|]. auto.
    - destruct (f k) as [x|x] eqn:g; cbn [snd]; [|auto]. intros h. apply dget_first in h. cbn [dget] in h.
      destruct (eq_dec k' k) as [->|ne]; [injection h as <-; auto|auto].
  Qed.
  Lemma like_fetch b d0 r ref sh : like b d0 r ->
    snd (rs_fetch norm urljoin remote rsize ref r sh) = answer_of d0 (urljoin b ref) /\
    like b d0 (fst (fst (rs_fetch norm urljoin remote rsize ref r sh))).
  Proof.
    intros (eb & (d & es & ea) & ec). unfold rs_fetch. rewrite eb, es. set (url := urljoin b ref).
    set (f := fun u => snd (rs_read norm remote (Some d) sh u)).
    assert (hf : forall u, f u = answer_of d0 u) by (intros u; unfold f; rewrite answer_shared; apply ea).
    assert (hc : forall u v, dget u (snd (lru_call rsize f url (rs_cache r))) = Some v -> answer_of d0 u = Ok v).
    { intros u v h. apply lru_entries in h. destruct h as [h|(-> & h)]; [apply ec; exact h|rewrite <- hf; exact h]. }
    assert (hv := lru_val f url (rs_cache r)).
    destruct (dget url (rs_cache r)) as [x|] eqn:e; cbn [fst snd]; rewrite hv.
    - split; [symmetry; apply ec; exact e|]. repeat split; cbn [rs_base rs_store rs_cache]; [exists d; auto|exact hc].
    - split; [apply hf|]. repeat split; cbn [rs_base rs_store rs_cache]; [|exact hc].
      unfold rs_read. cbn [rs_get]. destruct (dget (fst (urldefrag url)) d) as [y|] eqn:g; cbn [fst]; [exists d; auto|].
      destruct (remote (fst (urldefrag url))) as [y|y] eqn:h; cbn [fst rs_put]; [|exists d; auto].
      eexists. split; [reflexivity|]. intros u. rewrite (answer_put d url y u g h). apply ea.
  Qed.
  Lemma like_step b d0 w o i r : nth_error (w_res w) i = Some r -> like b d0 r ->
    exists r', nth_error (w_res (fst (step w o))) i = Some r' /\ like b d0 r'.
  Proof.
    intros e l. destruct o as [o|uri schema|j ref]; cbn [rs_step fst w_res].
    - exists r. auto.
    - exists r. split; [|exact l]. destruct (rs_create norm default_uri size uri schema (w_docs w)) as [s [r'|x]]; cbn [fst w_res]; [|exact e].
      rewrite nth_error_app1; [exact e|]. apply nth_error_Some. congruence.
    - destruct (nth_error (w_res w) j) as [rj|] eqn:ej; cbn [fst w_res]; [|exists r; auto].
      rewrite (nth_replaced _ _ i _ _ ej). destruct (Nat.eq_dec j i) as [->|ne]; [|exists r; auto].
      eexists. split; [reflexivity|]. assert (rj = r) by congruence. subst rj. apply like_fetch. exact l.
  Qed.
  Lemma like_run b d0 os : forall w i r, nth_error (w_res w) i = Some r -> like b d0 r ->
    exists r', nth_error (w_res (run w os)) i = Some r' /\ like b d0 r'.
  Proof.
    induction os as [|o os IH]; intros w i r e l; [exists r; auto|]. cbn [rs_run].
    destruct (like_step b d0 w o i r e l) as (r' & e' & l'). apply (IH _ _ r'); assumption.
  Qed.
  Lemma created_private w uri v : uri <> [] -> st w <> [] -> registered norm w (fst (urldefrag uri)) = None ->
    let w1 := fst (step w (Create uri (Some v))) in
    exists r, nth_error (w_res w1) (length (w_res w)) = Some r /\ like uri (dset uri v (st w)) r.
  Proof.
    intros nu ne n. cbn [rs_step]. unfold rs_create.
    replace (match uri with [] => default_uri | _ :: _ => uri end) with uri by (destruct uri; [contradiction|reflexivity]).
    unfold registered in n. rewrite n. cbn [fst snd]. destruct (st w) as [|p q] eqn:s; [contradiction|]. cbn [rs_init fst snd w_res].
    eexists. split; [rewrite nth_error_app2, Nat.sub_diag by lia; reflexivity|].
    split; [reflexivity|split].
    - cbn [rs_store]. eexists. split; [reflexivity|]. reflexivity.
    - intros url x h. discriminate.
  Qed.
  Lemma created_answers w uri v os ref : uri <> [] -> st w <> [] -> registered norm w (fst (urldefrag uri)) = None ->
    snd (step (run (fst (step w (Create uri (Some v)))) os) (Fetch (length (w_res w)) ref)) =
    Some (answer_of (dset uri v (st w)) (urljoin uri ref)).
  Proof.
    intros nu ne n. destruct (created_private w uri v nu ne n) as (r & e & l).
    destruct (like_run _ _ os _ _ _ e l) as (r' & e' & l'). set (w2 := run _ os) in *. cbn [rs_step]. rewrite e'. cbn [snd].
    f_equal. apply like_fetch. exact l'.
  Qed.

  (** Whatever is registered, unregistered, made or resolved after a private resolver was made, it answers the same *)
  Theorem private_resolver_stable : forall w uri v os ref,
    uri <> [] -> st w <> [] -> registered norm w (fst (urldefrag uri)) = None ->
    let w1 := fst (step w (Create uri (Some v))) in
    snd (step (run w1 os) (Fetch (length (w_res w)) ref)) = snd (step w1 (Fetch (length (w_res w)) ref)).
  Proof.
    intros w uri v os ref nu ne n w1. unfold w1. rewrite (created_answers w uri v os ref nu ne n).
    symmetry. exact (created_answers w uri v [] ref nu ne n).
  Qed.
  (** It finds the schema it was made for, whole or at a fragment *)
  Theorem own_schema_found : forall w uri v os ref,
    uri <> [] -> ~ In "#" uri -> st w <> [] -> registered norm w uri = None ->
    let w1 := fst (step w (Create uri (Some v))) in
    (urljoin uri ref = uri -> snd (step (run w1 os) (Fetch (length (w_res w)) ref)) = Some (Ok v)) /\
    (forall f x, urljoin uri ref = uri ++ "#" :: f -> resolve_fragment v f = Ok x ->
       snd (step (run w1 os) (Fetch (length (w_res w)) ref)) = Some (Ok x)).
  Proof.
    intros w uri v os ref nu nh ne n w1. unfold w1.
    assert (n' : registered norm w (fst (urldefrag uri)) = None) by (rewrite (urldefrag_plain uri nh); exact n).
    rewrite (created_answers w uri v os ref nu ne n'). split.
    - intros ->. unfold answer_of, rs_read. rewrite (urldefrag_plain uri nh). cbn [fst snd rs_get]. rewrite dget_dset_same. reflexivity.
    - intros f x -> e. unfold answer_of, rs_read. rewrite (urldefrag_join uri f nh). cbn [fst snd rs_get]. rewrite dget_dset_same, e. reflexivity.
  Qed.
  (** and the other documents registered at that time, asked for by their normal form *)
  Theorem registered_found : forall w uri v os ref u d,
    uri <> [] -> st w <> [] -> registered norm w (fst (urldefrag uri)) = None ->
    urljoin uri ref = u -> ~ In "#" u -> norm u = u -> u <> uri -> registered norm w u = Some d ->
    snd (step (run (fst (step w (Create uri (Some v)))) os) (Fetch (length (w_res w)) ref)) = Some (Ok d).
  Proof.
    intros w uri v os ref u d nu ne n eu nh nn nq r.
    rewrite (created_answers w uri v os ref nu ne n), eu. unfold answer_of, rs_read. rewrite (urldefrag_plain u nh). cbn [fst snd rs_get].
    rewrite dget_dset_other by exact nq. unfold registered in r. rewrite nn in r. rewrite r. reflexivity.
  Qed.

  (** ** the spelling of the keys *)
  Definition normal (d : dict str pyval) : Prop := forall k, In k (dkeys d) -> exists u, k = norm u.
  Lemma normal_dset d u v : normal d -> normal (dset (norm u) v d).
  Proof. intros h k i. apply In_dkeys_dset in i. destruct i as [->|i]; [eauto|apply h; exact i]. Qed.
  Lemma normal_ddel d u : normal d -> normal (ddel (norm u) d).
  Proof. intros h k i. apply h. rewrite dkeys_ddel in i. apply filter_In in i. apply i. Qed.
  Lemma normal_step w o : normal (st w) -> normal (st (fst (step w o))).
  Proof.
    intros h. destruct o as [[u d|u|u]|uri schema|i ref].
    - apply normal_dset. exact h.
    - apply normal_ddel. exact h.
    - exact h.
    - cbn [rs_step]. assert (g : normal (store (fst (rs_create norm default_uri size uri schema (w_docs w))))).
      { unfold rs_create. set (u := match uri with [] => _ | _ => _ end).
        destruct (dget (norm (fst (urldefrag u))) (st w)) as [d|].
        - cbn [rs_init fst store]. apply normal_dset. exact h.
        - destruct schema as [v|].
          + cbn [fst snd]. destruct (st w) as [|p q] eqn:s; cbn [rs_init fst store]; [apply normal_dset|]; exact h.
          + destruct (snd (doc_step norm size (w_docs w) (Resolve u))) as [[v|x]|] eqn:f; cbn [fst]; try exact h.
            rewrite resolve_store. destruct (st w) as [|p q] eqn:s; cbn [rs_init fst store]; [apply normal_dset|]; exact h. }
      destruct (rs_create norm default_uri size uri schema (w_docs w)) as [s [r|e]]; exact g.
    - cbn [rs_step]. destruct (nth_error (w_res w) i) as [r|]; cbn [fst w_docs store]; [|exact h].
      unfold rs_fetch. destruct (dget (urljoin (rs_base r) ref) (rs_cache r)) as [v|]; cbn [fst snd]; [exact h|].
      unfold rs_read. set (uf := urldefrag _). destruct (rs_get norm (rs_store r) (st w) (fst uf)) as [x|] eqn:g; cbn [fst snd]; [exact h|].
      destruct (remote (fst uf)) as [x|x] eqn:e; cbn [fst snd]; [|exact h].
      unfold rs_put. destruct (rs_store r) as [dd|]; cbn [snd]; [exact h|]. apply normal_dset. exact h.
  Qed.
  Definition world0 : world := {| w_docs := docs0; w_res := [] |}.
  Lemma normal_run os : normal (st (run world0 os)).
  Proof.
    assert (g : forall os w, normal (st w) -> normal (st (run w os))).
    { induction os0 as [|o os0 IH]; intros w h; [exact h|]. cbn [rs_run]. apply IH. apply normal_step. exact h. }
    apply g. intros k [].
  Qed.
  Hypothesis norm_idem : forall u, norm (norm u) = norm u.
  Lemma spelled_missing os u : norm u <> u -> dget u (st (run world0 os)) = None.
  Proof.
    intros n. destruct (dget u (st (run world0 os))) as [d|] eqn:e; [|reflexivity]. exfalso.
    apply dget_Some_key in e. destruct (normal_run os u e) as (x & ->). apply n. apply norm_idem.
  Qed.
  (** Finding: the private copy has lost the normalisation of the keys. A document registered under [u] is not found
      under [u] when [u] is not in normal form (has a capital letter, say): it is downloaded again or the reference fails *)
  Theorem spelling_refuted : forall before uri v after ref u e,
    let w := run world0 before in
    uri <> [] -> st w <> [] -> registered norm w (fst (urldefrag uri)) = None ->
    urljoin uri ref = u -> ~ In "#" u -> norm u <> u -> u <> uri -> remote u = Err e ->
    snd (step (run (fst (step w (Create uri (Some v)))) after) (Fetch (length (w_res w)) ref)) = Some (Err RefResolutionError).
  Proof.
    intros before uri v after ref u e w nu ne n eu nh nn nq r.
    rewrite (created_answers w uri v after ref nu ne n), eu. unfold answer_of, rs_read. rewrite (urldefrag_plain u nh). cbn [fst snd rs_get].
    rewrite dget_dset_other by exact nq. unfold w. rewrite (spelled_missing before u nn), r. reflexivity.
  Qed.
  (** Finding: a resolver made for a fragment of an unregistered document does not find the local references of the schema it
      was given, since that schema is stored under the full URI and references are looked up under the document's URI *)
  Theorem own_fragment_refuted : forall before doc f v after ref g e,
    let w := run world0 before in let uri := doc ++ "#" :: f in
    ~ In "#" doc -> st w <> [] -> registered norm w doc = None ->
    urljoin uri ref = doc ++ "#" :: g -> remote doc = Err e ->
    snd (step (run (fst (step w (Create uri (Some v)))) after) (Fetch (length (w_res w)) ref)) = Some (Err RefResolutionError).
  Proof.
    intros before doc f v after ref g e w uri nh ne n eu r.
    assert (nu : uri <> []) by (unfold uri; destruct doc; discriminate).
    assert (n' : registered norm w (fst (urldefrag uri)) = None) by (unfold uri; rewrite (urldefrag_join doc f nh); exact n).
    rewrite (created_answers w uri v after ref nu ne n'), eu. unfold answer_of, rs_read. rewrite (urldefrag_join doc g nh). cbn [fst snd rs_get].
    rewrite dget_dset_other.
    - assert (m : dget doc (st (run world0 before)) = None).
      { destruct (eq_dec (norm doc) doc) as [q|q]; [|apply spelled_missing; exact q].
        unfold registered, w in n. rewrite q in n. exact n. }
      unfold w. rewrite m, r. reflexivity.
    - intros q. apply nh. unfold uri in q. rewrite q. apply in_or_app. right. left. reflexivity.
  Qed.

  (** ** resolvers of registered documents *)
  (** the resolver works on the shared store: it sees what is registered now, in any spelling, unless it has been asked for
      the very same url before *)
  Theorem shared_resolver_follows : forall w i r ref d, nth_error (w_res w) i = Some r -> rs_store r = None ->
    let url := urljoin (rs_base r) ref in
    dget url (rs_cache r) = None -> registered norm w (fst (urldefrag url)) = Some d ->
    snd (step w (Fetch i ref)) =
    Some (match resolve_fragment d (snd (urldefrag url)) with Ok v => Ok v | Err _ => Err RefResolutionError end).
  Proof.
    intros w i r ref d e s url c g. cbn [rs_step]. rewrite e. cbn [snd]. f_equal. unfold rs_fetch. fold url. rewrite c. cbn [snd].
    rewrite lru_val, c, s. unfold rs_read. cbn [rs_get]. unfold registered in g. rewrite g. reflexivity.
  Qed.
  (** a resolver of a registered document is such a resolver, and the schema given with it is not looked at *)
  Theorem registered_resolver_shared : forall w uri schema d, uri <> [] -> registered norm w (fst (urldefrag uri)) = Some d ->
    let w1 := fst (step w (Create uri schema)) in
    nth_error (w_res w1) (length (w_res w)) =
      Some {| rs_base := fst (urldefrag uri); rs_referrer := d; rs_store := None; rs_cache := [] |} /\
    forall u, registered norm w1 u = registered norm w u.
  Proof.
    intros w uri schema d nu e w1. unfold w1. cbn [rs_step]. unfold rs_create.
    replace (match uri with [] => default_uri | _ :: _ => uri end) with uri by (destruct uri; [contradiction|reflexivity]).
    unfold registered in *. rewrite e. cbn [rs_init fst snd w_res w_docs store]. split.
    - rewrite nth_error_app2, Nat.sub_diag by lia. reflexivity.
    - intros u. rewrite dget_dset. destruct (eq_dec (norm u) _) as [->|_]; [symmetry; exact e|reflexivity].
  Qed.
  (** Finding: it goes on answering what it answered first, after the document was registered again or unregistered *)
  Theorem shared_resolver_stale_refuted : forall w i ref v o, 1 <= rsize ->
    snd (step w (Fetch i ref)) = Some (Ok v) -> snd (step (fst (step (fst (step w (Fetch i ref))) (Docs o))) (Fetch i ref)) = Some (Ok v).
  Proof.
    intros w i ref v o hs. cbn [rs_step]. destruct (nth_error (w_res w) i) as [r|] eqn:e; [|discriminate].
    cbn [fst snd w_res w_docs store]. intros h. injection h as h.
    rewrite (nth_replaced _ _ i _ _ e). destruct (Nat.eq_dec i i) as [_|n]; [|contradiction]. cbn [snd]. f_equal.
    remember (store (fst (doc_step norm size {| store := snd (fst (rs_fetch norm urljoin remote rsize ref r (st w))); memo := memo (w_docs w) |} o))) as sh eqn:eq_sh.
    clear eq_sh. revert h. unfold rs_fetch at 1 3. set (url := urljoin (rs_base r) ref).
    assert (k : forall f c, fst (lru_call rsize f url c) = Ok v -> dget url (snd (lru_call rsize f url c)) = Some v).
    { intros f c q. unfold lru_call in *. destruct (dget url c) as [x|].
      - cbn [fst snd] in *. injection q as ->. cbn [dget]. destruct (eq_dec url url); [reflexivity|contradiction].
      - destruct (f url) as [x|x]; cbn [fst snd] in *; [|discriminate]. injection q as ->.
        destruct rsize; [lia|]. cbn [firstn dget]. destruct (eq_dec url url); [reflexivity|contradiction]. }
    destruct (dget url (rs_cache r)) as [x|]; cbn [fst snd]; intros q; apply k in q; unfold rs_fetch; cbn [rs_base rs_cache rs_store];
      fold url; rewrite q; cbn [snd]; rewrite lru_val, q; reflexivity.
  Qed.

  (** ** files given by URI *)
  Variable download : str -> res pyval.
  Notation uresolve := (uri_resolve norm remote download).
  (** a registered document, or the part at the fragment, without any download *)
  Theorem uri_registered : forall doc frag rem s d, ~ In "#" doc -> dget (norm doc) s = Some d -> d <> VNone ->
    uresolve doc rem s = (s, Ok (Some d)) /\
    (frag <> [] -> uresolve (doc ++ "#" :: frag) rem s = (s, do v <- resolve_fragment d frag; Ok (Some v))).
  Proof.
    intros doc frag rem s d nh e nn. split; [|intros nf]; unfold uri_resolve.
    - rewrite (urldefrag_plain doc nh). cbn [fst snd]. rewrite e. destruct d; try contradiction; reflexivity.
    - rewrite (urldefrag_join doc frag nh). cbn [fst snd]. rewrite e. destruct frag as [|c f]; [contradiction|]. destruct d; try contradiction; reflexivity.
  Qed.
  (** Finding: an unknown document is None instead of an error when downloads are off *)
  Theorem uri_unknown_refuted : forall value s, dget (norm (fst (urldefrag value))) s = None -> uresolve value false s = (s, Ok None).
  Proof. intros value s e. unfold uri_resolve. rewrite e. reflexivity. Qed.
  (** With downloads every failure is InvalidValue; a part of a document registers the whole document, so that it is downloaded
      once; a whole document is downloaded each time and stays unregistered *)
  Theorem uri_download : forall doc s, ~ In "#" doc -> dget (norm doc) s = None ->
    (uresolve doc true s = (s, match download doc with Ok v => Ok (Some v) | Err _ => Err InvalidValue end)) /\
    (forall frag, frag <> [] ->
      (forall e, remote doc = Err e -> uresolve (doc ++ "#" :: frag) true s = (s, Err InvalidValue)) /\
      (forall d, remote doc = Ok d -> d <> VNone ->
        dget (norm doc) (fst (uresolve (doc ++ "#" :: frag) true s)) = Some d /\
        (forall k, k <> norm doc -> dget k (fst (uresolve (doc ++ "#" :: frag) true s)) = dget k s) /\
        (forall v, resolve_fragment d frag = Ok v ->
          snd (uresolve (doc ++ "#" :: frag) true s) = Ok (Some v) /\
          forall rem, snd (uresolve (doc ++ "#" :: frag) rem (fst (uresolve (doc ++ "#" :: frag) true s))) = Ok (Some v)))).
  Proof.
    intros doc s nh e. split.
    - unfold uri_resolve. rewrite (urldefrag_plain doc nh). cbn [fst snd]. rewrite e. reflexivity.
    - intros [|c frag] nf; [contradiction|].
      assert (h : uresolve (doc ++ "#" :: c :: frag) true s = match remote doc with
                 | Ok d => (dset (norm doc) d s, match resolve_fragment d (c :: frag) with Ok v => Ok (Some v) | Err _ => Err InvalidValue end)
                 | Err _ => (s, Err InvalidValue) end).
      { unfold uri_resolve. rewrite (urldefrag_join doc (c :: frag) nh). cbn [fst snd]. rewrite e. reflexivity. }
      split.
      + intros x r. rewrite h, r. reflexivity.
      + intros d r nn. rewrite h, r. cbn [fst snd]. split; [apply dget_dset_same|split].
        * intros k ne. apply dget_dset_other. exact ne.
        * intros v q. rewrite q. split; [reflexivity|]. intros rem.
          destruct (uri_registered doc (c :: frag) rem (dset (norm doc) d s) d nh (dget_dset_same _ _ _) nn) as (_ & u).
          rewrite (u nf), q. reflexivity.
  Qed.
End Props.
Print Assumptions documents_kept.
Print Assumptions documents_added.
Print Assumptions empty_store_refuted.
Print Assumptions private_resolver_stable.
Print Assumptions own_schema_found.
Print Assumptions registered_found.
Print Assumptions spelling_refuted.
Print Assumptions own_fragment_refuted.
Print Assumptions shared_resolver_follows.
Print Assumptions registered_resolver_shared.
Print Assumptions shared_resolver_stale_refuted.
Print Assumptions uri_registered.
Print Assumptions uri_unknown_refuted.
Print Assumptions uri_download.

Local Open Scope string_scope. Local Open Scope list_scope.
(** a store with one document, then a resolver for an unregistered schema "n:S" and one for the registered document *)
Example resolvers_ex :
  let s := list_ascii_of_string in
  let norm := map (fun c => if Ascii.eqb c "A"%char then "a"%char else c) in
  let join (base ref : list ascii) := match ref with "#"%char :: _ => base ++ ref | _ => ref end in
  let remote (u : list ascii) : res pyval := Err (UserError 1) in
  let step := rs_step norm join remote (s "m") 128 1024 in
  let run := rs_run norm join remote (s "m") 128 1024 in
  let w := run world0 [Docs (Register (s "n:A") (VDict [("x", VInt 1)]))] in
  let w1 := run w [Create (s "n:S") (Some (VDict [("y", VInt 2)])); Create (s "n:a#/x") None] in
  registered norm w (s "n:A") = Some (VDict [("x", VInt 1)]) /\ registered norm w1 (s "n:S") = None /\
  snd (step w1 (Fetch 0 (s "#/y"))) = Some (Ok (VInt 2)) /\ snd (step w1 (Fetch 0 (s "n:a"))) = Some (Ok (VDict [("x", VInt 1)])) /\
  snd (step w1 (Fetch 0 (s "n:A"))) = Some (Err RefResolutionError) /\ snd (step w1 (Fetch 1 (s "n:A"))) = Some (Ok (VDict [("x", VInt 1)])) /\
  snd (step (run w1 [Docs (Unregister (s "n:A"))]) (Fetch 0 (s "n:a"))) = Some (Ok (VDict [("x", VInt 1)])) /\
  snd (step (run w1 [Fetch 1 (s "#/x"); Docs (Register (s "n:A") (VDict []))]) (Fetch 1 (s "#/x"))) = Some (Ok (VInt 1)) /\
  snd (step (run w [Create (s "n:T#/p") (Some (VDict [("z", VInt 3)]))]) (Fetch 0 (s "n:T#/z"))) = Some (Err RefResolutionError) /\
  registered norm (run world0 [Create (s "n:S") (Some VNone)]) (s "n:S") = Some VNone.
Proof. repeat split. Qed.
Example uri_resolve_ex :
  let s := list_ascii_of_string in
  let remote (u : list ascii) : res pyval := Ok (VDict [("x", VInt 1)]) in
  uri_resolve (fun u => u) remote (fun _ => Err (UserError 1)) (s "n:A#/x") true [] =
    ([(s "n:A", VDict [("x", VInt 1)])], Ok (Some (VInt 1))) /\
  uri_resolve (fun u => u) remote (fun _ => Err (UserError 1)) (s "n:A") false [] = ([], Ok None).
Proof. split; reflexivity. Qed.
