(** C92: reading an XML document in pieces. *)
From Verif Require Import Base Xml_Model Xml_Spec Xml_Proofs Xml_Props Xs_Model Xs_Spec.
From Coq Require Import Lia.
Local Open Scope list_scope.

Definition always : list call -> bool := fun _ => true.
Definition state_of (p : pstate) (path : list step_of) (cs : list call) : sstate := {| s_p := p; s_path := path; s_calls := cs; s_stopped := false |}.
Definition inside (kids : list (str * xml * str)) : list event := flat_map (fun k => events (fst (fst k)) (snd (fst k)) ++ [Chars (snd k)]) kids.

Section Stream.
  Variable force : str -> bool.
  Notation run d := (fold_left (s_handle force d always)).
  Notation mk b it ds st := {| p_buf := b; p_item := it; p_data := ds; p_stack := st |}.

  Lemma on_chars d cb s p path cs : s_handle force d cb (state_of p path cs) (Chars s) = state_of (handle force p (Chars s)) path cs.
  Proof. reflexivity. Qed.
  Lemma on_start d n attrs p path cs : s_handle force d always (state_of p path cs) (Start n attrs) =
    state_of (if Nat.ltb d (S (length path)) then start_element attrs (flush p) else flush p) (path ++ [way n attrs]) cs.
  Proof. unfold s_handle, state_of. cbn [s_stopped s_path s_p s_calls]. rewrite app_length, Nat.add_1_r. reflexivity. Qed.
  Lemma on_end d n p path w cs : s_handle force d always (state_of p (path ++ [w]) cs) (End n) =
    state_of (end_element force n (flush p)) path (if Nat.eqb (S (length path)) d then cs ++ [(path ++ [w], item_of (flush p))] else cs).
  Proof.
    unfold s_handle, state_of. cbn [s_stopped s_path s_p s_calls]. rewrite app_length, Nat.add_1_r, removelast_last.
    destruct (Nat.eqb (S (length path)) d); reflexivity.
  Qed.

  (** below the depth, everything is as without [item_depth] *)
  Lemma run_deep d x : forall n p path cs, d <= length path ->
    run d (events n x) (state_of p path cs) = state_of (fold_left (handle force) (events n x) p) path cs.
  Proof.
    induction x as [attrs first kids IH] using xml_rect'. intros n p path cs h. cbn [events fold_left]. rewrite on_start, on_chars.
    replace (Nat.ltb d (S (length path))) with true by (symmetry; apply Nat.ltb_lt; lia).
    rewrite !fold_left_app.
    assert (K : forall p, run d (inside kids) (state_of p (path ++ [way n attrs]) cs) = state_of (fold_left (handle force) (inside kids) p) (path ++ [way n attrs]) cs).
    { unfold inside. induction kids as [|k kids IHk]; intros q; [reflexivity|]. cbn [flat_map]. rewrite !fold_left_app.
      rewrite IH; [|left; reflexivity|rewrite app_length; lia]. cbn [fold_left]. rewrite on_chars.
      rewrite IHk; [reflexivity|]. intros k' i. apply IH. right. exact i. }
    fold (inside kids). rewrite K. cbn [fold_left]. rewrite on_end.
    replace (Nat.eqb (S (length path)) d) with false by (symmetry; apply Nat.eqb_neq; lia). reflexivity.
  Qed.

  (** what is inside an element at the depth *)
  Lemma run_inside kids d : (forall k, In k kids -> XmlOk (snd (fst k))) -> forall b it ds st path cs, d <= length path ->
    exists b' ds', run d (inside kids) (state_of (mk b it ds st) path cs) =
      state_of (mk b' (pushes force it (map (fun k => (fst (fst k), value_of force (snd (fst k)))) kids)) ds' st) path cs /\
      (kids = [] -> b' = b /\ ds' = ds).
  Proof.
    induction kids as [|k kids IH]; intros ok b it ds st path cs h; [exists b, ds; split; [reflexivity|auto]|].
    unfold inside. cbn [flat_map]. rewrite !fold_left_app. rewrite run_deep by exact h. rewrite run_element by (apply ok; left; reflexivity).
    cbn [fold_left]. rewrite on_chars. cbn [handle p_buf p_item p_data p_stack].
    destruct (IH (fun k' i => ok k' (or_intror i)) ([] ++ snd k) (Some (push_data force it (fst (fst k)) (value_of force (snd (fst k))))) (ds ++ opt b) st path cs h)
      as (b' & ds' & e & _).
    unfold inside in e. rewrite e. exists b', ds'. split; [reflexivity|discriminate].
  Qed.

  Definition each (d : nat) (path : list step_of) : str -> list (str * xml * str) -> list call :=
    fix each (before : str) (kids : list (str * xml * str)) : list call :=
      match kids with [] => [] | (n, y, after) :: kids' => reported force d path before n y ++ each after kids' end.
  Lemma reported_below d path before name attrs first kids :
    reported force (S d) path before name (Xml attrs first kids) = each d (path ++ [way name attrs]) (before ++ first) kids.
  Proof. reflexivity. Qed.

  Lemma concat_opt b : concat (opt b) = b.
  Proof. destruct b; simpl; [reflexivity|rewrite app_nil_r; reflexivity]. Qed.
  Lemma text_item ds : Forall (fun s : str => s <> []) ds -> match ds with [] => XNone | s :: l => XStr (concat (s :: l)) end = match concat ds with [] => XNone | t => XStr t end.
  Proof. intros h. destruct ds as [|s ds]; [reflexivity|]. inversion h; subst. destruct s; [congruence|reflexivity]. Qed.
  Lemma opt_nonempty b : Forall (fun s : str => s <> []) (opt b).
  Proof. destruct b; repeat constructor. discriminate. Qed.

  Lemma run_items r : forall x, XmlOk x -> forall n path cs b ds, Forall (fun s => s <> []) ds ->
    run (length path + S r) (events n x) (state_of (mk b None ds []) path cs) =
    state_of (mk [] None [] []) path (cs ++ reported force r path (concat ds ++ b) n x).
  Proof.
    induction r as [|r IH]; intros [attrs first kids] ok n path cs b ds hd; inversion ok as [a f ks hn hk]; subst.
    - cbn [events fold_left]. rewrite on_start, on_chars. replace (Nat.ltb (length path + 1) (S (length path))) with false by (symmetry; apply Nat.ltb_ge; lia).
      rewrite fold_left_app. fold (inside kids). rewrite flush_eq. cbn [handle p_buf p_item p_data p_stack app].
      destruct (run_inside kids (length path + 1) (fun k i => proj2 (hk k i)) first None (ds ++ opt b) [] (path ++ [way n attrs]) cs) as (b' & ds' & e & e0).
      { rewrite app_length. reflexivity. }
      rewrite e. cbn [fold_left]. rewrite on_end. replace (Nat.eqb (S (length path)) (length path + 1)) with true by (symmetry; apply Nat.eqb_eq; lia).
      rewrite flush_eq. unfold end_element. cbn [p_stack]. cbn [reported content]. f_equal. f_equal. f_equal. f_equal.
      unfold item_of. cbn [p_item p_data]. destruct kids as [|k kids].
      + destruct (e0 eq_refl) as (-> & ->). cbn [map pushes fold_left]. rewrite text_item.
        * rewrite !concat_app, !concat_opt. reflexivity.
        * rewrite !Forall_app. repeat split; [exact hd|apply opt_nonempty..].
      + set (vs := map (fun k => (fst (fst k), value_of force (snd (fst k)))) (k :: kids)). cbn [content].
        replace (pushes force None vs) with (pushes force (Some []) vs) by reflexivity. rewrite pushes_grouped; [reflexivity|intros ? _ []|].
        intros kv i. apply in_map_iff in i. destruct i as (k' & <- & _). apply value_not_list.
    - cbn [events fold_left]. rewrite on_start, on_chars. replace (Nat.ltb (length path + S (S r)) (S (length path))) with false by (symmetry; apply Nat.ltb_ge; lia).
      rewrite fold_left_app. fold (inside kids). rewrite flush_eq. cbn [handle p_buf p_item p_data p_stack app]. rewrite reported_below.
      assert (K : forall b ds cs, Forall (fun s : str => s <> []) ds -> exists b' ds',
        run (length path + S (S r)) (inside kids) (state_of (mk b None ds []) (path ++ [way n attrs]) cs) =
        state_of (mk b' None ds' []) (path ++ [way n attrs]) (cs ++ each r (path ++ [way n attrs]) (concat ds ++ b) kids)).
      { clear - IH hk. unfold inside. induction kids as [|[[m y] t] kids IHk]; intros b ds cs hd; [exists b, ds; simpl; rewrite app_nil_r; reflexivity|].
        cbn [flat_map fst snd]. rewrite !fold_left_app. replace (length path + S (S r)) with (length (path ++ [way n attrs]) + S r) by (rewrite app_length; simpl; lia).
        rewrite IH; [|apply (hk (m, y, t)); left; reflexivity|exact hd]. cbn [fold_left]. rewrite on_chars. cbn [handle p_buf p_item p_data p_stack app].
        replace (length (path ++ [way n attrs]) + S r) with (length path + S (S r)) by (rewrite app_length; simpl; lia).
        destruct (IHk (fun k i => hk k (or_intror i)) t [] (cs ++ reported force r (path ++ [way n attrs]) (concat ds ++ b) m y) (Forall_nil _)) as (b' & ds' & e).
        rewrite e. exists b', ds'. cbn [concat app each]. rewrite app_assoc. reflexivity. }
      destruct (K first (ds ++ opt b) cs) as (b' & ds' & e); [rewrite Forall_app; split; [exact hd|apply opt_nonempty]|].
      rewrite e. cbn [fold_left]. rewrite on_end. replace (Nat.eqb (S (length path)) (length path + S (S r))) with false by (symmetry; apply Nat.eqb_neq; lia).
      rewrite flush_eq. unfold end_element. cbn [p_stack]. rewrite concat_app, concat_opt. reflexivity.
  Qed.

  (** * a callback that refuses *)
  Lemma handle_grows d st e : exists more, s_calls (s_handle force d always st e) = s_calls st ++ more.
  Proof.
    unfold s_handle. destruct (s_stopped st); [exists []; rewrite app_nil_r; reflexivity|]. destruct e; simpl; try (exists []; rewrite app_nil_r; reflexivity).
    destruct (Nat.eqb _ _); simpl; [eexists; reflexivity|exists []; rewrite app_nil_r; reflexivity].
  Qed.
  Lemma never_stops d st e : s_stopped st = false -> s_stopped (s_handle force d always st e) = false.
  Proof. intros h. unfold s_handle. rewrite h. destruct e; simpl; try reflexivity. destruct (Nat.eqb _ _); reflexivity. Qed.
  Lemma last_or (J : list call) c p q : J ++ [c] = p ++ q -> q <> [] -> exists q', J = p ++ q'.
  Proof. intros e n. destruct (exists_last n) as (q' & z & ->). rewrite app_assoc in e. apply app_inj_tail in e. exists q'. apply e. Qed.
  Lemma follows d cb evs : forall st, s_stopped st = false -> AllAccepted cb (s_calls st) ->
    let full := fold_left (s_handle force d always) evs st in let got := fold_left (s_handle force d cb) evs st in
    (AllAccepted cb (s_calls full) /\ got = full) \/ (s_stopped got = true /\ UpToRefusal cb (s_calls full) (s_calls got)).
  Proof.
    induction evs as [|e evs IH]; intros st hs ha; [left; split; [exact ha|reflexivity]|]. cbn [fold_left].
    assert (G : forall st', exists more, s_calls (fold_left (s_handle force d always) evs st') = s_calls st' ++ more).
    { clear. induction evs as [|e evs IH]; intros st; [exists []; symmetry; apply app_nil_r|]. cbn [fold_left]. destruct (IH (s_handle force d always st e)) as (m & ->).
      destruct (handle_grows d st e) as (m' & ->). exists (m' ++ m). rewrite app_assoc. reflexivity. }
    assert (same : s_handle force d cb st e = s_handle force d always st e -> AllAccepted cb (s_calls (s_handle force d always st e)) -> 
      (AllAccepted cb (s_calls (fold_left (s_handle force d always) evs (s_handle force d always st e))) /\
        fold_left (s_handle force d cb) evs (s_handle force d cb st e) = fold_left (s_handle force d always) evs (s_handle force d always st e)) \/
      (s_stopped (fold_left (s_handle force d cb) evs (s_handle force d cb st e)) = true /\
       UpToRefusal cb (s_calls (fold_left (s_handle force d always) evs (s_handle force d always st e))) (s_calls (fold_left (s_handle force d cb) evs (s_handle force d cb st e))))).
    { intros -> h. apply IH; [apply never_stops; exact hs|exact h]. }
    destruct e as [n attrs|n|s].
    - apply same; unfold s_handle; rewrite hs; [reflexivity|exact ha].
    - destruct (Nat.eqb (length (s_path st)) d) eqn:ed; [|apply same; unfold s_handle; rewrite hs, ed; [reflexivity|exact ha]].
      set (c := (s_path st, item_of (flush (s_p st)))). destruct (cb (s_calls st ++ [c])) eqn:ec.
      + apply same; unfold s_handle; rewrite hs, ed; fold c; [rewrite ec; reflexivity|]. cbn [always s_calls].
        intros p q eq np. destruct q as [|z q]; [rewrite app_nil_r in eq; rewrite <- eq; exact ec|].
        destruct (last_or _ _ _ _ eq) as (q' & eq'); [discriminate|]. apply (ha p q' eq' np).
      + right. destruct (G (s_handle force d always st (End n))) as (more & hm).
        assert (stopped : forall l st', s_stopped st' = true -> fold_left (s_handle force d cb) l st' = st').
        { clear. induction l as [|e l IH]; intros st h; [reflexivity|]. cbn [fold_left]. unfold s_handle at 2. rewrite h. apply IH. exact h. }
        assert (e1 : s_handle force d cb st (End n) = {| s_p := flush (s_p st); s_path := s_path st; s_calls := s_calls st ++ [c]; s_stopped := true |}).
        { unfold s_handle. rewrite hs, ed. fold c. rewrite ec. reflexivity. }
        rewrite e1, stopped by reflexivity. split; [reflexivity|]. cbn [s_calls]. repeat split.
        * exact ec.
        * intro e. apply app_eq_nil in e. destruct e as (_ & e). discriminate.
        * exists more. rewrite hm. f_equal. unfold s_handle. rewrite hs, ed. reflexivity.
        * intros p q eq np nq. destruct (last_or _ _ _ _ eq nq) as (q' & eq'). apply (ha p q' eq' np).
    - apply same; unfold s_handle; rewrite hs; [reflexivity|exact ha].
  Qed.
  Lemma all_accepted_nil cb : AllAccepted cb [].
  Proof. intros p q e n. symmetry in e. apply app_eq_nil in e. destruct e as (e & _). congruence. Qed.
End Stream.

(** Every element at the depth is given once, in order of the document, with the way to it, and nothing is returned. *)
Theorem stream_exact : forall force d name x, XmlOk x ->
  stream force (S d) (fun _ => true) (events name x) = (Ok None, reported force d [] [] name x).
Proof.
  intros force d name x ok. unfold stream. change (s_start) with (state_of {| p_buf := []; p_item := None; p_data := []; p_stack := [] |} [] []).
  assert (e := run_items force d x ok name [] [] [] [] (Forall_nil _)). cbn [length Nat.add] in e. unfold always in e. rewrite e. reflexivity.
Qed.

(** Reading stops at the first call that is refused; the calls are the first ones of the whole reading. *)
Theorem stream_stops : forall force d callback evs,
  (stream force d callback evs = stream force d (fun _ => true) evs /\ AllAccepted callback (snd (stream force d (fun _ => true) evs))) \/
  (fst (stream force d callback evs) = Err ParsingInterrupted /\ UpToRefusal callback (snd (stream force d (fun _ => true) evs)) (snd (stream force d callback evs))).
Proof.
  intros force d cb evs. destruct (follows force d cb evs s_start eq_refl (all_accepted_nil cb)) as [(h & e)|(h1 & h2)].
  - left. split; [|exact h]. unfold stream. rewrite e. reflexivity.
  - right. unfold stream. rewrite h1. split; [reflexivity|exact h2].
Qed.

(** Without a depth there is no call, and the result is the one of a plain reading. *)
Theorem stream_no_depth : forall force callback name x, stream force 0 callback (events name x) = (Ok (parse force (events name x)), []).
Proof.
  intros force cb name x.
  assert (A : stream force 0 (fun _ => true) (events name x) = (Ok (parse force (events name x)), [])).
  { unfold stream. change (s_start) with (state_of {| p_buf := []; p_item := None; p_data := []; p_stack := [] |} [] []).
    assert (e := run_deep force 0 x name {| p_buf := []; p_item := None; p_data := []; p_stack := [] |} [] [] (le_n 0)). unfold always in e. rewrite e. reflexivity. }
  destruct (stream_stops force 0 cb (events name x)) as [(e & _)|(_ & (_ & n & (r & e) & _))]; [rewrite e; exact A|].
  rewrite A in e. cbn [snd] in e. symmetry in e. apply app_eq_nil in e. destruct e as (e & _). congruence.
Qed.

(** When there is no text above the elements of this depth, each is given with its own content. *)
Lemma reported_items force d : forall path name x, NoTextAbove d x ->
  reported force d path [] name x = map (fun i => (fst i, content force [] (snd i))) (items d path name x).
Proof.
  induction d as [|d IH]; intros path name [attrs first kids] h; [reflexivity|]. inversion h as [|d' a ks hk]; subst.
  rewrite reported_below. cbn [items app]. clear h. induction kids as [|[[m y] t] kids IHk]; [reflexivity|].
  destruct (hk _ (or_introl eq_refl)) as (e & hy). cbn [fst snd] in e, hy. subst t. cbn [each flat_map fst snd]. rewrite map_app. rewrite IH by exact hy. f_equal.
  apply IHk. intros k i. apply hk. right. exact i.
Qed.
Theorem stream_clean : forall force d name x, XmlOk x -> NoTextAbove d x ->
  snd (stream force (S d) (fun _ => true) (events name x)) = map (fun i => (fst i, content force [] (snd i))) (items d [] name x).
Proof. intros force d name x ok h. rewrite stream_exact by exact ok. apply reported_items. exact h. Qed.

(** One call per element of the depth, text or not. *)
Theorem stream_counts : forall force d name x, XmlOk x ->
  map fst (snd (stream force (S d) (fun _ => true) (events name x))) = map fst (items d [] name x).
Proof.
  intros force d name x ok. rewrite stream_exact by exact ok. cbn [snd]. generalize ([] : str) as before, ([] : list step_of) as path. revert name x ok.
  induction d as [|d IH]; intros name [attrs first kids] ok before path; [reflexivity|]. rewrite reported_below. cbn [items]. inversion ok as [a f ks hn hk]; subst. clear ok.
  generalize (before ++ first) as b. induction kids as [|[[m y] t] kids IHk]; intros b; [reflexivity|]. cbn [each flat_map fst snd]. rewrite !map_app.
  rewrite IH by (apply (hk (m, y, t)); left; reflexivity). f_equal. apply IHk. intros k i. apply hk. right. exact i.
Qed.

(** Refuted: that what is given of an element is what [parse] gives of it. The text of the element above that comes just before, down to
    the indentation, is put before its own... *)
Theorem text_leaks_refuted : forall force a b t u, t <> [] ->
  snd (stream force 2 (fun _ => true) (events a (Xml [] t [(b, Xml [] u [], [])]))) = [([(a, None); (b, None)], XStr (t ++ u))].
Proof.
  intros force a b t u h. destruct t as [|c t]; [congruence|]. destruct u as [|c2 u]; cbn; rewrite ?app_nil_r; reflexivity.
Qed.
(** ... its own text is not trimmed... *)
Theorem text_untrimmed_refuted : exists u, forall force a,
  snd (stream force 1 (fun _ => true) (events a (Xml [] u []))) = [([(a, None)], XStr u)] /\ value_of force (Xml [] u []) <> XStr u.
Proof. exists (chars " x"). intros force a. split; [reflexivity|]. cbn. discriminate. Qed.
(** ... and its attributes are only in the way to it, its text nowhere when it has children. *)
Theorem attributes_lost_refuted : forall force name attrs attrs' first first' kids, XmlOk (Xml attrs first kids) -> XmlOk (Xml attrs' first' kids) -> kids <> [] ->
  map snd (snd (stream force 1 (fun _ => true) (events name (Xml attrs first kids)))) =
  map snd (snd (stream force 1 (fun _ => true) (events name (Xml attrs' first' kids)))).
Proof. intros force name attrs attrs' first first' kids o o' h. rewrite !stream_exact by assumption. destruct kids; [congruence|]. reflexivity. Qed.

Print Assumptions stream_exact.
Print Assumptions stream_stops.
Print Assumptions stream_no_depth.
Print Assumptions stream_clean.
Print Assumptions stream_counts.
Print Assumptions text_leaks_refuted.
Print Assumptions text_untrimmed_refuted.
Print Assumptions attributes_lost_refuted.

(** * Examples *)
(** <a p="x"> <b>1</b><b q="y"><c>2</c></b></a>, two levels down *)
Definition ex_root : xml := Xml [(chars "p", chars "x")] (chars " ") [(chars "b", Xml [] (chars "1") [], []);
  (chars "b", Xml [(chars "q", chars "y")] [] [(chars "c", Xml [] (chars "2") [], [])], [])].
Example ex_root_ok : XmlOk ex_root.
Proof.
  assert (tn : forall c : ascii, c <> "@"%char -> TagName [c]) by (intros c h; repeat split; try discriminate; intros s e; inversion e; congruence).
  constructor; [repeat constructor; intros []|]. intros k [<-|[<-|[]]]; (split; [apply tn; discriminate|]).
  - constructor; [constructor|intros ? []].
  - constructor; [repeat constructor; intros []|]. intros k [<-|[]]. split; [apply tn; discriminate|]. constructor; [constructor|intros ? []].
Qed.
Definition ex_way : step_of := (chars "a", Some [(chars "p", chars "x")]).
Example stream_exact_ex : stream (fun _ => false) 2 (fun _ => true) (events (chars "a") ex_root) =
  (Ok None, [([ex_way; (chars "b", None)], XStr (chars " 1"));
             ([ex_way; (chars "b", Some [(chars "q", chars "y")])], XDict [(chars "c", XStr (chars "2"))])]).
Proof. reflexivity. Qed.
Example stream_stops_ex : stream (fun _ => false) 2 (fun _ => false) (events (chars "a") ex_root) =
  (Err ParsingInterrupted, [([ex_way; (chars "b", None)], XStr (chars " 1"))]) /\ stream (fun _ => false) 2 (fun l => Nat.ltb (length l) 3) (events (chars "a") ex_root) = stream (fun _ => false) 2 (fun _ => true) (events (chars "a") ex_root).
Proof. split; reflexivity. Qed.
Example stream_clean_ex : let x := Xml [] [] [(chars "b", Xml [] (chars "1") [], []); (chars "b", Xml [] [] [], [])] in
  XmlOk x /\ NoTextAbove 1 x /\ snd (stream (fun _ => false) 2 (fun _ => true) (events (chars "a") x)) =
    [([(chars "a", None); (chars "b", None)], XStr (chars "1")); ([(chars "a", None); (chars "b", None)], XNone)].
Proof.
  assert (tn : forall c : ascii, c <> "@"%char -> TagName [c]) by (intros c h; repeat split; try discriminate; intros s e; inversion e; congruence).
  split; [|split; [|reflexivity]].
  - constructor; [constructor|]. intros k [<-|[<-|[]]]; (split; [apply tn; discriminate|]; constructor; [constructor|intros ? []]).
  - constructor. intros k [<-|[<-|[]]]; (split; [reflexivity|apply nta_here]).
Qed.
Example stream_no_depth_ex : stream (fun _ => false) 0 (fun _ => false) (events (chars "a") (Xml [] (chars "1") [])) = (Ok (Some [(chars "a", XStr (chars "1"))]), []).
Proof. reflexivity. Qed.
Example attributes_lost_refuted_ex : let kids := [(chars "c", Xml [] (chars "2") [], [])] in
  map snd (snd (stream (fun _ => false) 1 (fun _ => true) (events (chars "a") (Xml [(chars "p", chars "x")] (chars "t") kids)))) = [XDict [(chars "c", XStr (chars "2"))]].
Proof. reflexivity. Qed.
