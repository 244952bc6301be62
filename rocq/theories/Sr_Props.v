(** C91: sessions and their repositories. *)
From Verif Require Import Base Sr_Model Sr_Spec.
From Coq Require Import Lia.
Local Open Scope string_scope.
Local Open Scope list_scope.

Section Lemmas.
  Context {A : Type}.
  Lemma upd_length (l : list A) i f : length (upd l i f) = length l.
  Proof. revert i. induction l as [|x l IH]; intros [|i]; cbn; congruence. Qed.
  Lemma nth_error_upd (l : list A) i j f : nth_error (upd l i f) j = if Nat.eqb i j then option_map f (nth_error l j) else nth_error l j.
  Proof. revert i j. induction l as [|x l IH]; intros [|i] [|j]; cbn; try reflexivity; [destruct (Nat.eqb i j); reflexivity|apply IH]. Qed.
  Lemma nth_upd (l : list A) i j f d : i < length l -> nth j (upd l i f) d = if Nat.eqb i j then f (nth j l d) else nth j l d.
  Proof. revert i j. induction l as [|x l IH]; intros [|i] [|j] h; cbn in *; try reflexivity; try lia. apply IH. lia. Qed.
End Lemmas.

Section Repos.
  Variable live : nat -> bool.
  Variable registry : dict string string.
  Notation make := (make live). Notation step := (step live registry). Notation run := (run live registry).
  Notation get_or_create_repo := (get_or_create_repo live registry).

  (** A new repository is listed, last, by one session and by no other: the one given in [meta_opts], or else the default session,
      whatever the argument [session]; and it is bound to that session. *)
  Theorem made_exact : forall cls m given w, 0 < length (w_sess w) -> (forall n, m = Some n -> n < length (w_sess w)) ->
    (forall s r, Lists w s r -> r < length (w_repos w)) ->
    let '(r, w') := make cls m given w in
    exists s, (m = Some s /\ live s = true \/ s = 0 /\ forall n, m = Some n -> live n = false) /\
      BoundTo w' r s /\ ClassOf w' r cls /\ Lists w' s r /\
      (forall s', Lists w' s' r -> s' = s) /\ (forall s' r', r' <> r -> (Lists w' s' r' <-> Lists w s' r')) /\
      (forall r', r' < length (w_repos w) -> nth_error (w_repos w') r' = nth_error (w_repos w) r').
  Proof.
    intros cls m given w h0 hm hl. unfold make, Sr_Model.make. set (s := match m with Some n => if live n then n else 0 | None => 0 end).
    assert (hs : s < length (w_sess w)) by (unfold s; destruct m as [n|]; [destruct (live n); [apply hm; reflexivity|exact h0]|exact h0]).
    exists s. split.
    { unfold s. destruct m as [n|]; [|right; split; [reflexivity|discriminate]]. destruct (live n) eqn:e; [left; split; [reflexivity|exact e]|].
      right. split; [reflexivity|]. intros k ek. injection ek as <-. exact e. }
    assert (hr : nth_error (w_repos w ++ [{| r_class := cls; r_session := 0 |}]) (length (w_repos w)) = Some {| r_class := cls; r_session := 0 |})
      by (rewrite nth_error_app2, Nat.sub_diag by lia; reflexivity).
    assert (hw : forall s' r', Lists (bind_repo s (length (w_repos w)) {| w_sess := w_sess w; w_repos := w_repos w ++ [{| r_class := cls; r_session := 0 |}] |}) s' r' <->
                 Lists w s' r' \/ s' = s /\ r' = length (w_repos w)).
    { intros s' r'. unfold Lists, bind_repo. cbn [w_sess]. rewrite nth_upd by exact hs. destruct (Nat.eqb_spec s s') as [<-|ne].
      - rewrite in_app_iff. cbn. intuition.
      - intuition congruence. }
    repeat split.
    - exists {| r_class := cls; r_session := s |}. split; [|reflexivity]. unfold bind_repo. cbn [w_repos]. rewrite nth_error_upd, Nat.eqb_refl, hr. reflexivity.
    - exists {| r_class := cls; r_session := s |}. split; [|reflexivity]. unfold bind_repo. cbn [w_repos]. rewrite nth_error_upd, Nat.eqb_refl, hr. reflexivity.
    - apply hw. right. split; reflexivity.
    - intros s' h. apply hw in h. destruct h as [h|(h & _)]; [apply hl in h; lia|exact h].
    - intros h. apply hw in h. destruct h as [h|(_ & h)]; [exact h|congruence].
    - intros h. apply hw. left. exact h.
    - intros r' h. unfold bind_repo. cbn [w_repos]. rewrite nth_error_upd. destruct (Nat.eqb_spec (length (w_repos w)) r') as [<-|_]; [lia|]. apply nth_error_app1. exact h.
  Qed.

  Lemma made_sound cls m given w : Sound w -> (forall n, m = Some n -> n < length (w_sess w)) -> Sound (snd (make cls m given w)).
  Proof.
    intros (h0 & h1 & h2) hm. pose proof (made_exact cls m given w h0 hm h1) as h. unfold make, Sr_Model.make in *. cbn [fst snd] in *.
    destruct h as (s & _ & hb & _ & hl & ho & hk & hr). set (w' := bind_repo _ _ _) in *.
    assert (el : length (w_repos w') = S (length (w_repos w))) by (unfold w', bind_repo; cbn [w_repos]; rewrite upd_length, app_length; cbn; lia).
    split; [unfold w', bind_repo; cbn [w_sess]; rewrite upd_length; exact h0|]. split.
    - intros s' r h. destruct (Nat.eq_dec r (length (w_repos w))) as [->|ne]; [lia|]. apply hk in h; [|exact ne]. apply h1 in h. lia.
    - intros r s' (x & ex & es). destruct (Nat.eq_dec r (length (w_repos w))) as [->|ne].
      + destruct hb as (y & ey & e2). rewrite ex in ey. injection ey as ->. assert (eq : s' = s) by congruence. rewrite eq. exact hl.
      + apply hk; [exact ne|]. apply h2. assert (r < length (w_repos w')) by (apply nth_error_Some; rewrite ex; discriminate).
        rewrite hr in ex by lia. exists x. split; assumption.
  Qed.
  Lemma step_sound w o ops : Sound w -> Valid live registry w (o :: ops) -> Sound (step w o).
  Proof.
    intros hs (hv & _). destruct o as [|c m s|s r|s n|c s]; cbn [Sr_Model.step].
    - destruct hs as (h0 & h1 & h2).
      assert (e : forall s r, Lists {| w_sess := w_sess w ++ [[]]; w_repos := w_repos w |} s r <-> Lists w s r).
      { intros s r. unfold Lists. cbn [w_sess]. destruct (Nat.lt_ge_cases s (length (w_sess w))) as [h|h]; [rewrite app_nth1 by exact h; tauto|].
        rewrite app_nth2 by exact h. rewrite (nth_overflow (w_sess w)) by exact h. destruct (s - length (w_sess w)) as [|[|k]]; cbn; tauto. }
      split; [cbn [w_sess]; rewrite app_length; cbn; lia|]. split; [intros s r h; apply e in h; exact (h1 s r h)|]. intros r s h. apply e. apply h2. exact h.
    - apply made_sound; [exact hs|exact (proj1 hv)].
    - destruct hs as (h0 & h1 & h2), hv as (v1 & v2). unfold Sound, Lists, BoundTo, bind_repo. cbn [w_sess w_repos]. rewrite !upd_length.
      split; [exact h0|]. split.
      + intros s' r' h. rewrite nth_upd in h by exact v1. destruct (Nat.eqb s s'); [|exact (h1 s' r' h)]. apply in_app_iff in h. destruct h as [h|[<-|[]]]; [exact (h1 s' r' h)|exact v2].
      + intros r' s' (x & ex & es). rewrite nth_upd by exact v1. rewrite nth_error_upd in ex. destruct (Nat.eqb_spec r r') as [<-|ne].
        * destruct (nth_error (w_repos w) r) as [y|]; [|discriminate]. cbn in ex. injection ex as <-. cbn in es. subst s'. rewrite Nat.eqb_refl. apply in_app_iff. right. left. reflexivity.
        * assert (i : In r' (nth s' (w_sess w) [])) by (apply (h2 r' s'); exists x; split; assumption).
          destruct (Nat.eqb s s'); [apply in_app_iff; left|]; exact i.
    - unfold get_or_create_repo, Sr_Model.get_or_create_repo. destruct (by_class w s n); [exact hs|]. destruct (dget n registry) as [c|]; [|exact hs].
      apply (made_sound c None (Some s) w hs). discriminate.
    - apply (made_sound c None s w hs). discriminate.
  Qed.

  (** Whatever is done, sessions list repositories that were made, and every repository is listed by the session it is bound to. *)
  Theorem bound_listed : forall ops, Valid live registry start ops -> Sound (run ops).
  Proof.
    intros ops hv. assert (g : forall ops w, Sound w -> Valid live registry w ops -> Sound (fold_left step ops w)).
    { clear. induction ops as [|o ops IH]; intros w hs hv; [exact hs|]. cbn [fold_left]. apply IH; [exact (step_sound w o ops hs hv)|exact (proj2 hv)]. }
    apply (g ops start); [|exact hv]. unfold Sound, start, Lists, BoundTo. cbn. split; [lia|]. split.
    - intros [|[|s]] r []. - intros [|r] s (x & e & _); discriminate.
  Qed.

  (** A repository made for a session is not in that session: it is listed by the default session. *)
  Theorem session_argument_refuted : forall cls s w, 0 < length (w_sess w) -> (forall s r, Lists w s r -> r < length (w_repos w)) -> s <> 0 ->
    let '(r, w') := make cls None (Some s) w in ~ Lists w' s r /\ ~ BoundTo w' r s /\ Lists w' 0 r /\ BoundTo w' r 0.
  Proof.
    intros cls s w h0 hl ne. pose proof (made_exact cls None (Some s) w h0 ltac:(discriminate) hl) as h. destruct (make cls None (Some s) w) as (r, w').
    destruct h as (s0 & [(h & _)|(-> & _)] & hb & _ & hli & ho & _); [discriminate|]. repeat split; try assumption.
    - intros i. apply ne. exact (ho s i).
    - intros (x & ex & es). destruct hb as (y & ey & e0). congruence.
  Qed.

  (** Asking a session for a repository by name gives one it lists whose class has that name, the first one. *)
  Theorem get_existing : forall s name w a r b, repositories w s = a ++ r :: b -> ClassOf w r name ->
    (forall r', In r' a -> ~ ClassOf w r' name) -> get_or_create_repo s name w = (Ok r, w).
  Proof.
    intros s name w a r b e (x & ex & ec) hn. unfold get_or_create_repo, Sr_Model.get_or_create_repo, by_class. rewrite e.
    assert (f : forall p, find p (a ++ r :: b) = match find p a with Some y => Some y | None => find p (r :: b) end).
    { clear. intros p. induction a as [|y a IH]; [reflexivity|]. cbn [app find]. destruct (p y); [reflexivity|exact IH]. }
    rewrite f. cbn [find]. rewrite ex, ec, String.eqb_refl. destruct (find _ a) as [y|] eqn:ef; [|reflexivity].
    apply find_some in ef. destruct ef as (i & g). exfalso. apply (hn y i). destruct (nth_error (w_repos w) y) as [z|] eqn:ez; [|discriminate].
    apply String.eqb_eq in g. exists z. split; assumption.
  Qed.

  Lemma by_class_none s name w : (forall r, Lists w s r -> ~ ClassOf w r name) -> by_class w s name = None.
  Proof.
    intros h. unfold by_class. destruct (find _ _) as [y|] eqn:ef; [|reflexivity]. apply find_some in ef. destruct ef as (i & g). exfalso.
    apply (h y i). destruct (nth_error (w_repos w) y) as [z|] eqn:ez; [|discriminate]. apply String.eqb_eq in g. exists z. split; assumption.
  Qed.
  Fixpoint ask (n : nat) (s : nat) (name : string) (w : world) : world :=
    match n with 0 => w | S n' => ask n' s name (snd (get_or_create_repo s name w)) end.
  Lemma make_default cls given w : snd (make cls None given w) =
    {| w_sess := upd (w_sess w) 0 (fun l => l ++ [length (w_repos w)]); w_repos := w_repos w ++ [{| r_class := cls; r_session := 0 |}] |}.
  Proof.
    unfold make, Sr_Model.make, bind_repo. cbn [snd w_sess w_repos]. f_equal. clear. induction (w_repos w) as [|x l IH]; cbn; [reflexivity|]. f_equal. exact IH.
  Qed.
  Lemma make_lists cls given w s r : 0 < length (w_sess w) -> Lists (snd (make cls None given w)) s r <-> Lists w s r \/ s = 0 /\ r = length (w_repos w).
  Proof.
    intros h. rewrite make_default. unfold Lists. cbn [w_sess]. rewrite nth_upd by exact h. destruct (Nat.eqb_spec 0 s) as [<-|ne]; [|intuition congruence].
    rewrite in_app_iff. cbn. intuition.
  Qed.
  Lemma make_class cls given w r c : r < length (w_repos w) -> ClassOf (snd (make cls None given w)) r c <-> ClassOf w r c.
  Proof. intros h. rewrite make_default. unfold ClassOf. cbn [w_repos]. rewrite nth_error_app1 by exact h. reflexivity. Qed.

  (** A session other than the default one never finds what was made for it: asked [n] times for a registered name, it makes [n]
      repositories, all listed by the default session and none by itself. *)
  Theorem asked_again_refuted : forall n s name cls w, Sound w -> s <> 0 -> dget name registry = Some cls ->
    (forall r, Lists w s r -> ~ ClassOf w r name) ->
    length (w_repos (ask n s name w)) = length (w_repos w) + n /\ repositories (ask n s name w) s = repositories w s /\
    repositories (ask n s name w) 0 = repositories w 0 ++ seq (length (w_repos w)) n.
  Proof.
    induction n as [|n IH]; intros s name cls w hs ne hr hn; cbn [ask].
    - rewrite Nat.add_0_r, app_nil_r. repeat split.
    - assert (e : snd (get_or_create_repo s name w) = snd (make cls None (Some s) w)).
      { unfold get_or_create_repo, Sr_Model.get_or_create_repo. rewrite (by_class_none s name w hn), hr. reflexivity. }
      rewrite e. set (w1 := snd (make cls None (Some s) w)).
      assert (hs1 : Sound w1) by (apply made_sound; [exact hs|discriminate]).
      assert (hn1 : forall r, Lists w1 s r -> ~ ClassOf w1 r name).
      { intros r h. apply (make_lists cls (Some s) w s r (proj1 hs)) in h. destruct h as [h|(h & _)]; [|congruence]. intros hc.
        apply (make_class cls (Some s) w r name) in hc; [exact (hn r h hc)|]. exact (proj1 (proj2 hs) s r h). }
      destruct (IH s name cls w1 hs1 ne hr hn1) as (e1 & e2 & e3). rewrite e1, e2, e3.
      assert (es : w1 = {| w_sess := upd (w_sess w) 0 (fun l => l ++ [length (w_repos w)]); w_repos := w_repos w ++ [{| r_class := cls; r_session := 0 |}] |})
        by (unfold w1; apply make_default). rewrite es. unfold repositories. cbn [w_sess w_repos]. rewrite !nth_upd by exact (proj1 hs). rewrite Nat.eqb_refl.
      rewrite (proj2 (Nat.eqb_neq 0 s)) by congruence. rewrite app_length. cbn [length seq]. split; [lia|]. split; [reflexivity|].
      rewrite <- app_assoc. cbn [app]. rewrite Nat.add_1_r. reflexivity.
  Qed.
  (** The default session finds the repository it made, if its class was registered under its own name... *)
  Theorem default_finds : forall name w r w', Sound w -> dget name registry = Some name -> get_or_create_repo 0 name w = (Ok r, w') ->
    exists r', get_or_create_repo 0 name w' = (Ok r', w') /\ r' = r.
  Proof.
    intros name w r w' hs hr e. unfold get_or_create_repo, Sr_Model.get_or_create_repo in e. destruct (by_class w 0 name) as [r0|] eqn:eb.
    - injection e as <- <-. exists r0. split; [|reflexivity]. unfold get_or_create_repo, Sr_Model.get_or_create_repo. rewrite eb. reflexivity.
    - rewrite hr in e. pose proof (make_default name (Some 0) w) as em. unfold make, Sr_Model.make in e, em. injection e as <- <-. cbn [snd] in em. rewrite em.
      exists (length (w_repos w)). split; [|reflexivity].
      apply (get_existing 0 name _ (repositories w 0) (length (w_repos w)) []).
      + unfold repositories. cbn [w_sess]. rewrite nth_upd by exact (proj1 hs). reflexivity.
      + exists {| r_class := name; r_session := 0 |}. split; [|reflexivity]. cbn [w_repos]. rewrite nth_error_app2, Nat.sub_diag by lia. reflexivity.
      + intros r' i (x & ex & ec). cbn [w_repos] in ex. rewrite nth_error_app1 in ex by (apply (proj1 (proj2 hs) 0 r'); exact i).
        unfold by_class in eb. pose proof (find_none _ _ eb r' i) as g. cbn in g. rewrite ex, ec, String.eqb_refl in g. discriminate.
  Qed.
  (** ...which is not so for those of the library, whose names are not those of classes: a registered name is never found, and the
      name of a class can be asked for only once a repository of that class is there. *)
  Theorem short_names_refuted : forall s name w, Sound w ->
    (forall n c, dget n registry = Some c -> c <> name) -> (forall r c, ClassOf w r c -> exists n, dget n registry = Some c) ->
    forall cls, dget name registry = Some cls -> exists w', get_or_create_repo s name w = (Ok (length (w_repos w)), w') /\ length (w_repos w') = S (length (w_repos w)).
  Proof.
    intros s name w hs hne hc cls hr. unfold get_or_create_repo, Sr_Model.get_or_create_repo. rewrite by_class_none.
    - rewrite hr. unfold make, Sr_Model.make, bind_repo. eexists. split; [reflexivity|]. cbn [w_repos]. rewrite upd_length, app_length. cbn. lia.
    - intros r _ h. destruct (hc r name h) as (n & e). exact (hne n name e eq_refl).
  Qed.
  Theorem class_names_refuted : forall s name w, dget name registry = None -> (forall r, Lists w s r -> ~ ClassOf w r name) ->
    get_or_create_repo s name w = (Err TypeError, w).
  Proof. intros s name w hr hn. unfold get_or_create_repo, Sr_Model.get_or_create_repo. rewrite by_class_none by exact hn. rewrite hr. reflexivity. Qed.

  (** Loading files leaves one more repository in the default session for each, whatever sessions were given, for ever: nothing removes one. *)
  Theorem loads_accumulate : forall loads w, 0 < length (w_sess w) ->
    let w' := fold_left step (map (fun x => LoadFile (fst x) (snd x)) loads) w in
    repositories w' 0 = repositories w 0 ++ seq (length (w_repos w)) (length loads) /\ forall s, s <> 0 -> repositories w' s = repositories w s.
  Proof.
    induction loads as [|(c, g) loads IH]; intros w h0; cbn [map fold_left length seq fst snd].
    - rewrite app_nil_r. split; [reflexivity|]. intros s _. reflexivity.
    - cbn [Sr_Model.step]. unfold load_file. rewrite (make_default c g w).
      set (w1 := {| w_sess := _; w_repos := _ |}). assert (h1 : 0 < length (w_sess w1)) by (unfold w1; cbn [w_sess]; rewrite upd_length; exact h0).
      destruct (IH w1 h1) as (e1 & e2). cbv zeta in *. rewrite e1. unfold w1, repositories in *. cbn [w_sess w_repos] in *. rewrite nth_upd by exact h0. rewrite Nat.eqb_refl.
      rewrite app_length. cbn [length]. rewrite Nat.add_1_r, <- app_assoc. split; [reflexivity|]. intros s hs. rewrite (e2 s hs). rewrite nth_upd by exact h0.
      destruct (Nat.eqb_spec 0 s); [congruence|reflexivity].
  Qed.
  Theorem nothing_removed : forall o w s r, Valid live registry w [o] -> 0 < length (w_sess w) -> Lists w s r -> Lists (step w o) s r.
  Proof.
    intros o w s r (hv & _) h0 h. destruct o as [|c m g|s' r'|s' n|c g]; cbn [Sr_Model.step].
    - unfold Lists in *. cbn [w_sess]. destruct (Nat.lt_ge_cases s (length (w_sess w))) as [hl|hl]; [rewrite app_nth1 by exact hl; exact h|]. rewrite nth_overflow in h by exact hl. destruct h.
    - unfold Sr_Model.make, bind_repo, Lists. cbn [snd w_sess].
      assert (hb : match m with Some n => if live n then n else 0 | None => 0 end < length (w_sess w)) by (destruct m as [n|]; [destruct (live n); [apply (proj1 hv); reflexivity|exact h0]|exact h0]).
      rewrite nth_upd by exact hb. destruct (Nat.eqb _ s); [apply in_app_iff; left|]; exact h.
    - unfold bind_repo, Lists. cbn [w_sess]. rewrite nth_upd by exact (proj1 hv). destruct (Nat.eqb _ s); [apply in_app_iff; left|]; exact h.
    - unfold Sr_Model.get_or_create_repo. destruct (by_class w s' n); [exact h|]. destruct (dget n registry) as [c|]; [|exact h].
      apply (make_lists c (Some s') w s r h0). left. exact h.
    - apply (make_lists c g w s r h0). left. exact h.
  Qed.
End Repos.
Print Assumptions made_exact.
Print Assumptions bound_listed.
Print Assumptions session_argument_refuted.
Print Assumptions get_existing.
Print Assumptions asked_again_refuted.
Print Assumptions default_finds.
Print Assumptions short_names_refuted.
Print Assumptions class_names_refuted.
Print Assumptions loads_accumulate.
Print Assumptions nothing_removed.

(** The registry of the library (file_repositories.py:49, 99, 125, 150), and a history: two sessions, a repository in each. *)
Definition library : dict string string := [("file", "FileRepository"); ("json", "JsonFileRepository"); ("yaml", "YamlFileRepository"); ("xml", "XmlFileRepository")].
Definition demo_ops : list op := [NewSession; Make "MemoryRepository" (Some 1) None; Make "MemoryRepository" None (Some 1); GetOrCreate 1 "json"; GetOrCreate 1 "json"].
Example demo_valid : Valid (fun _ => true) library start demo_ops.
Proof. cbn. repeat split; intros; try lia; congruence || (injection H as <-; lia). Qed.
Example demo_run : w_sess (run (fun _ => true) library demo_ops) = [[1; 2; 3]; [0]] /\
  get_or_create_repo (fun _ => true) library 1 "JsonFileRepository" (run (fun _ => true) library demo_ops) = (Err TypeError, run (fun _ => true) library demo_ops).
Proof. split; reflexivity. Qed.
Example library_names : (forall n c, dget n library = Some c -> c <> "json") /\ dget "json" library = Some "JsonFileRepository" /\ dget "JsonFileRepository" library = None.
Proof.
  split; [|split; reflexivity]. intros n c h. apply dget_In in h. cbn in h. intuition congruence.
Qed.
