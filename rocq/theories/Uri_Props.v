(** Properties of fragment resolution, scoping and memoised documents (C40, C41, C42). *)
From Verif Require Import Uri_Model Uri_Spec Coll_Proofs Uri_Proofs Lru_Props.
Local Open Scope char_scope. Local Open Scope list_scope.

(** * C40 *)
(** a pointer whose first token is not empty, escaped and percent-encoded in any way (its leading '/' apart), resolves to the
    value its tokens lead to; a decimal numeral names an item of a list *)
Theorem fragment_resolves : forall doc t ts q v, t <> [] -> Quoted (pointer (t :: ts)) ("/" :: q) ->
  Reach rfc_index doc (t :: ts) v -> resolve_fragment doc ("/" :: q) = Ok v.
Proof.
  intros doc t ts q v ne h r. rewrite (resolve_parts doc t ts q ne h). apply follow_reach. eapply Reach_mono; [apply rfc_py|exact r].
Qed.
Print Assumptions fragment_resolves.
(** exactly what is found: list positions may be any Python integer literal *)
Theorem fragment_resolves_iff : forall doc t ts q v, t <> [] -> Quoted (pointer (t :: ts)) ("/" :: q) ->
  (resolve_fragment doc ("/" :: q) = Ok v <-> Reach py_position doc (t :: ts) v).
Proof. intros doc t ts q v ne h. rewrite (resolve_parts doc t ts q ne h). apply follow_reach. Qed.
Print Assumptions fragment_resolves_iff.
(** the only exception is InvalidValue, and it is raised exactly when the tokens lead nowhere *)
Theorem fragment_fails_iff : forall doc t ts q, t <> [] -> Quoted (pointer (t :: ts)) ("/" :: q) ->
  (resolve_fragment doc ("/" :: q) = Err InvalidValue <-> ~ exists v, Reach py_position doc (t :: ts) v).
Proof.
  intros doc t ts q ne h. split.
  - intros e (v & r). apply (fragment_resolves_iff doc t ts q v ne h) in r. congruence.
  - intros n. destruct (resolve_fragment doc ("/" :: q)) as [v|e] eqn:er.
    + destruct n. exists v. apply (fragment_resolves_iff doc t ts q v ne h). exact er.
    + f_equal. eapply follow_error. unfold resolve_fragment in er. exact er.
Qed.
Print Assumptions fragment_fails_iff.
Theorem fragment_errors : forall doc f e, resolve_fragment doc f = Err e -> e = InvalidValue.
Proof. intros doc f e h. eapply follow_error. exact h. Qed.
Print Assumptions fragment_errors.
(** the empty pointer is the whole document *)
Theorem fragment_empty : forall doc, resolve_fragment doc [] = Ok doc.
Proof. reflexivity. Qed.
(** every key of a dictionary, whatever its characters, is found by its escaped name *)
Theorem fragment_key : forall l k v q, k <> [] -> dget (unchars k) l = Some v -> Quoted ("/" :: escape k) ("/" :: q) ->
  resolve_fragment (VDict l) ("/" :: q) = Ok v.
Proof.
  intros l k v q ne e h. apply (fragment_resolves (VDict l) k [] q v ne).
  - unfold pointer. cbn [flat_map app]. rewrite app_nil_r. exact h.
  - econstructor; [exact e|constructor].
Qed.
Print Assumptions fragment_key.

Definition sample_doc : pyval :=
  VDict [("a/b"%string, VList [VInt 7; VDict [("m~n%"%string, VStr "found")]]); ("x"%string, VNone)].
Example fragment_case :
  resolve_fragment sample_doc (chars "/a~1b/1/m~0n%25") = Ok (VStr "found") /\
  Quoted (pointer [chars "a/b"; chars "1"; chars "m~n%"]) (chars "/a~1b/1/m~0n%25") /\
  Reach rfc_index sample_doc [chars "a/b"; chars "1"; chars "m~n%"] (VStr "found") /\
  resolve_fragment sample_doc (chars "/a~1b/2") = Err InvalidValue.
Proof.
  split; [reflexivity|]. split; [|split; [|reflexivity]].
  - cbn. repeat (apply q_char; [discriminate|]). apply (q_hex "2" "5" 2 5); [left; reflexivity|left; reflexivity|constructor].
  - unfold sample_doc. eapply reach_key; [reflexivity|]. eapply (reach_item _ _ _ 1); [reflexivity|reflexivity|].
    eapply reach_key; [reflexivity|constructor].
Qed.

(** "-1", which is not a position in the standard, finds the last item *)
Theorem fragment_negative_refuted : exists doc t v, resolve_fragment doc ("/" :: t) = Ok v /\ ~ exists v, Reach rfc_index doc [t] v.
Proof.
  exists (VList [VInt 1; VInt 2]), (chars "-1"), (VInt 2). split; [reflexivity|]. intros (v & h).
  inversion h as [| |l t i w ts u e hn r|]; subst. clear h r.
  assert (d : exists c s, decimal i = c :: s /\ c <> "-"%char).
  { unfold decimal. assert (ne : Nat.to_uint i <> Decimal.Nil).
    { intros e'. assert (h0 : i = 0) by (rewrite <- (DecimalNat.Unsigned.of_to i), e'; reflexivity). rewrite h0 in e'. discriminate. }
    destruct (Nat.to_uint i); [congruence|..]; (eexists _, _; split; [reflexivity|discriminate]). }
  destruct d as (c & s & d & nc). unfold rfc_index in e. rewrite d in e. cbn in e. injection e as e1 e2. congruence.
Qed.
Print Assumptions fragment_negative_refuted.
(** a pointer that starts with the empty key skips it *)
Theorem fragment_empty_key_refuted : exists doc v w, Reach rfc_index doc [[]; chars "a"] v /\
  resolve_fragment doc (pointer [[]; chars "a"]) = Ok w /\ w <> v.
Proof.
  exists (VDict [(""%string, VDict [("a"%string, VInt 1)]); ("a"%string, VInt 2)]), (VInt 1), (VInt 2). split; [|split; [reflexivity|discriminate]].
  eapply reach_key; [reflexivity|]. eapply reach_key; [reflexivity|constructor].
Qed.
Print Assumptions fragment_empty_key_refuted.

(** * C41 *)
Theorem scope_plain : forall u b, ~ In "#" u -> scope u b = u.
Proof. intros u b n. unfold scope. rewrite (proj2 (mem_not_In _ _ _) n). reflexivity. Qed.
Theorem scope_own_document : forall d f b, d <> [] -> ~ In "#" d -> ~ In "#" f -> scope (d ++ "#" :: f) b = d ++ "#" :: f.
Proof. intros d f b ne nd nf. rewrite scope_two by assumption. destruct d; [congruence|reflexivity]. Qed.
Theorem scope_bare_fragment : forall f bd bf, ~ In "#" f -> ~ In "#" bd ->
  scope ("#" :: f) (bd ++ "#" :: bf) = bd ++ "#" :: f /\ scope ("#" :: f) bd = bd ++ "#" :: f.
Proof.
  intros f bd bf nf nb. change ("#" :: f) with ([] ++ "#" :: f) at 1 3. rewrite (scope_two [] f (bd ++ "#" :: bf)), (scope_two [] f bd) by (assumption || intros []).
  rewrite (split_char_app "#" bd bf nb), (split_char_free "#" bd nb). split; reflexivity.
Qed.
(** what comes after a second '#' is dropped *)
Theorem scope_extra_dropped : forall d f x b, ~ In "#" d -> ~ In "#" f -> scope (d ++ "#" :: f ++ "#" :: x) b = scope (d ++ "#" :: f) b.
Proof.
  intros d f x b nd nf. rewrite (scope_two d f b nd nf). unfold scope.
  rewrite (proj2 (mem_In _ _ _)) by (apply in_or_app; right; left; reflexivity).
  rewrite split_char_app by exact nd. rewrite split_char_app by exact nf. reflexivity.
Qed.
(** scoping twice changes nothing; once scoped to a named document the base no longer matters *)
Theorem scope_idempotent : forall u b b', (b' = b \/ hd [] (split_char "#" b) <> []) -> scope (scope u b) b' = scope u b.
Proof.
  intros u b b' hb. destruct (mem_spec EqDec_ascii "#" u) as [i|n].
  - destruct (split_hash_in u i) as (d & f & r & e).
    assert (nd : ~ In "#" d) by (apply (split_hash_all u); rewrite e; left; reflexivity).
    assert (nf : ~ In "#" f) by (apply (split_hash_all u); rewrite e; right; left; reflexivity).
    assert (es : scope u b = (match d with [] => hd [] (split_char "#" b) | _ => d end) ++ "#" :: f).
    { unfold scope. rewrite (proj2 (mem_In _ _ _) i), e. reflexivity. }
    rewrite es, scope_two; [|destruct d; [apply split_hash_head|exact nd]|exact nf].
    destruct d as [|c d]; [|reflexivity]. destruct hb as [->|ne]; [destruct (hd [] (split_char "#" b)); reflexivity|].
    destruct (hd [] (split_char "#" b)); [congruence|reflexivity].
  - rewrite !scope_plain by (rewrite ?scope_plain; exact n). reflexivity.
Qed.
Print Assumptions scope_idempotent.
Print Assumptions scope_bare_fragment.
Example scope_case : scope (chars "#/$defs/A") (chars "https://x.org/doc#/properties/p") = chars "https://x.org/doc#/$defs/A" /\
  scope (chars "https://y.org/d#/$defs/A") (chars "https://x.org/doc") = chars "https://y.org/d#/$defs/A".
Proof. split; reflexivity. Qed.

(** * C42 *)
(** the document registered under [u] after a history: the last Register not undone by Unregister *)
Fixpoint registered (norm : list ascii -> list ascii) (rev_os : list doc_op) (u : list ascii) : option pyval :=
  match rev_os with
  | [] => None
  | Register u' d :: os => if eq_dec (norm u') (norm u) then Some d else registered norm os u
  | Unregister u' :: os => if eq_dec (norm u') (norm u) then None else registered norm os u
  | Resolve _ :: os => registered norm os u
  end.
Definition document (u : list ascii) : list ascii := fst (urldefrag u).
Definition resolves (u : list ascii) (o : doc_op) : bool := match o with Resolve u' => beq (document u') (document u) | _ => false end.
Definition resolves_other (u : list ascii) (o : doc_op) : bool := match o with Resolve u' => negb (beq (document u') (document u)) | _ => false end.
Definition in_doc (o : option pyval) (u : list ascii) : res pyval :=
  match o with Some VNone | None => Err (UserError 0) | Some d => resolve_fragment d (snd (urldefrag u)) end.

Lemma doc_run_app norm n os1 os2 : forall s, doc_run norm n s (os1 ++ os2) = doc_run norm n (doc_run norm n s os1) os2.
Proof. induction os1 as [|o os IH]; intros s; [reflexivity|]. cbn [app doc_run]. apply IH. Qed.
Lemma store_registered norm n os : forall u, dget (norm u) (store (doc_run norm n docs0 os)) = registered norm (rev os) u.
Proof.
  induction os as [|o os IH] using rev_ind; intros u; [reflexivity|]. rewrite doc_run_app, rev_app_distr. cbn [doc_run rev app registered].
  destruct o as [u' d|u'|u']; cbn [doc_step fst store].
  - rewrite dget_dset. destruct (eq_dec (norm u) (norm u')) as [e|ne], (eq_dec (norm u') (norm u)); congruence || (try apply IH).
  - destruct (eq_dec (norm u') (norm u)) as [e|ne].
    + rewrite dget_ddel. destruct (eq_dec (norm u) (norm u')); congruence.
    + rewrite dget_ddel. destruct (eq_dec (norm u) (norm u')); [congruence|apply IH].
  - apply IH.
Qed.

Lemma read_in_doc norm n os u v : (do d <- read_doc norm (store (doc_run norm n docs0 os)) (document u);
    match resolve_fragment d (snd (urldefrag u)) with Ok v => Ok v | Err _ => Err InvalidValue end) = v ->
  in_doc (registered norm (rev os) (document u)) u = v.
Proof.
  intros <-. unfold read_doc. rewrite store_registered. unfold in_doc.
  destruct (registered norm (rev os) (document u)) as [d|]; [|reflexivity].
  destruct d; cbn [rbind]; try reflexivity; match goal with |- ?r = _ => destruct r as [w|e] eqn:er end; try reflexivity;
    rewrite (fragment_errors _ _ _ er); reflexivity.
Qed.
(** a document that was never resolved before is the one currently registered *)
Theorem resolve_first_current : forall norm size os u, (forall o, In o os -> resolves u o = false) ->
  answer norm size os u = Some (in_doc (registered norm (rev os) (document u)) u).
Proof.
  intros norm n os u h.
  assert (m : forall os s, (forall o, In o os -> resolves u o = false) -> dget (document u) (memo s) = None ->
                dget (document u) (memo (doc_run norm n s os)) = None).
  { clear. induction os as [|o os IH]; intros s h e; [exact e|]. cbn [doc_run]. apply IH; [intros o' i; apply h; right; exact i|].
    destruct o as [u' d|u'|u']; cbn [doc_step fst memo]; [exact e|exact e|].
    destruct (dget (document u) (snd (lru_call n (read_doc norm (store s)) (fst (urldefrag u')) (memo s)))) as [v|] eqn:ed; [|reflexivity].
    apply lru_entry in ed. destruct ed as [ed|[eu _]]; [congruence|]. specialize (h _ (or_introl eq_refl)). cbn [resolves] in h.
    apply beq_false in h. unfold document in h, eu. congruence. }
  specialize (m os docs0 h eq_refl). unfold answer. cbn [doc_step snd]. unfold document in m. rewrite (lru_miss _ _ _ _ m).
  f_equal. symmetry. eapply read_in_doc. reflexivity.
Qed.
Print Assumptions resolve_first_current.

(** a uri once resolved keeps its answer, whatever is registered or unregistered, as long as fewer than [size] resolutions of
    other documents follow *)
Theorem resolve_sticks : forall norm size os1 u v os2, 
  answer norm size os1 u = Some (Ok v) -> length (filter (resolves_other u) os2) < size ->
  answer norm size (os1 ++ Resolve u :: os2) u = Some (Ok v).
Proof.
  intros norm n os1 u v os2 h l. unfold answer in *. rewrite doc_run_app. cbn [doc_run]. set (s := doc_run norm n docs0 os1) in *.
  cbn [doc_step fst snd] in h. injection h as h.
  destruct (fst (lru_call n (read_doc norm (store s)) (fst (urldefrag u)) (memo s))) as [d|] eqn:ed; [|discriminate].
  cbn [rbind] in h.
  assert (fr : Front 0 (document u) d (memo (fst (doc_step norm n s (Resolve u))))).
  { cbn [doc_step fst memo]. unfold document. apply front_new; [lia|exact ed]. }
  assert (run : forall os s i, Front i (document u) d (memo s) -> i + length (filter (resolves_other u) os) < n ->
                exists j, Front j (document u) d (memo (doc_run norm n s os))).
  { clear. induction os as [|o os IH]; intros s i f l; [eauto|]. cbn [doc_run filter] in *.
    destruct o as [u' d'|u'|u']; cbn [resolves_other] in l.
    - apply (IH _ i); [exact f|exact l].
    - apply (IH _ i); [exact f|exact l].
    - destruct (beq_spec (@EqDec_list _ EqDec_ascii) (document u') (document u)) as [e|ne]; cbn [negb] in l.
      + apply (IH _ 0); [|lia]. cbn [doc_step fst memo]. fold (document u'). rewrite e. eapply front_self. exact f.
      + cbn [length] in l. apply (IH _ (S i)); [|lia]. cbn [doc_step fst memo]. fold (document u'). apply front_other; [exact f|exact ne|lia]. }
  destruct (run os2 _ 0 fr) as (j & f); [lia|]. cbn [doc_step snd]. fold (document u).
  rewrite (lru_hit _ _ _ _ _ (front_hit _ _ _ _ f)). cbn [rbind]. rewrite h. reflexivity.
Qed.
Print Assumptions resolve_sticks.

(** whatever is answered was registered under that uri at some time *)
Theorem resolve_was_registered : forall norm size os u v, answer norm size os u = Some (Ok v) ->
  exists os1 os2, os = os1 ++ os2 /\ in_doc (registered norm (rev os1) (document u)) u = Ok v.
Proof.
  intros norm n os u v h.
  assert (inv : forall os k d, dget k (memo (doc_run norm n docs0 os)) = Some d ->
            exists os1 os2, os = os1 ++ os2 /\ read_doc norm (store (doc_run norm n docs0 os1)) k = Ok d).
  { clear. induction os as [|o os IH] using rev_ind; intros k d e; [discriminate|]. rewrite doc_run_app in e. cbn [doc_run] in e.
    assert (old : dget k (memo (doc_run norm n docs0 os)) = Some d ->
      exists os1 os2, os ++ [o] = os1 ++ os2 /\ read_doc norm (store (doc_run norm n docs0 os1)) k = Ok d).
    { intros e'. destruct (IH k d e') as (os1 & os2 & -> & r). exists os1, (os2 ++ [o]). split; [symmetry; apply app_assoc|exact r]. }
    destruct o as [u' d'|u'|u']; cbn [doc_step fst memo] in e; [apply old; exact e|apply old; exact e|].
    apply lru_entry in e. destruct e as [e|[-> e]]; [apply old; exact e|]. exists os, [Resolve u']. split; [reflexivity|exact e]. }
  unfold answer in h. cbn [doc_step snd] in h. injection h as h. fold (document u) in h.
  destruct (dget (document u) (memo (doc_run norm n docs0 os))) as [d|] eqn:e.
  - rewrite (lru_hit _ _ _ _ _ e) in h. destruct (inv os _ d e) as (os1 & os2 & -> & r). exists os1, os2. split; [reflexivity|].
    apply (read_in_doc norm n). rewrite r. exact h.
  - rewrite (lru_miss _ _ _ _ e) in h. exists os, []. split; [symmetry; apply app_nil_r|]. apply (read_in_doc norm n). exact h.
Qed.
Print Assumptions resolve_was_registered.

(** so a document registered again, or unregistered, after its first resolution is still answered as before *)
Theorem resolve_current_refuted : exists os u v,
  answer (fun u => u) 128 os u = Some (Ok v) /\ in_doc (registered (fun u => u) (rev os) (document u)) u <> Ok v /\
  answer (fun u => u) 128 (os ++ [Unregister u]) u = Some (Ok v).
Proof.
  exists [Register (chars "d") (VInt 1); Resolve (chars "d"); Register (chars "d") (VInt 2)], (chars "d"), (VInt 1).
  split; [reflexivity|]. split; [cbn; discriminate|reflexivity].
Qed.
Print Assumptions resolve_current_refuted.
(** the hypothesis of [resolve_sticks] matters: one more resolution of another document and the new content appears *)
Example resolve_evicted :
  let os := [Register (chars "d") (VInt 1); Register (chars "e") (VInt 5); Resolve (chars "d"); Register (chars "d") (VInt 2); Resolve (chars "e")] in
  answer (fun u => u) 1 os (chars "d") = Some (Ok (VInt 2)) /\ answer (fun u => u) 2 os (chars "d") = Some (Ok (VInt 1)).
Proof. split; reflexivity. Qed.
