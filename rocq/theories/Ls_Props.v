(** Properties of schema loading (C63). *)
From Verif Require Import Ls_Model Ls_Spec.
From Coq Require Import Permutation.
Local Open Scope char_scope. Local Open Scope list_scope.

Lemma rstrip_unhashed s : Unhashed s (rstrip_hash s).
Proof.
  induction s as [|c s [(n & e) h]]; [split; [exists 0; reflexivity|intros [|]; discriminate]|]. cbn [rstrip_hash].
  destruct (rstrip_hash s) as [|d r] eqn:er.
  - destruct (Ascii.eqb_spec c "#") as [->|ne].
    + split; [exists (S n); cbn; f_equal; exact e|intros [|]; discriminate].
    + split; [exists n; cbn; f_equal; exact e|]. intros [|x [|y p]] hp; injection hp; congruence.
  - split; [exists n; cbn; f_equal; exact e|]. intros [|x p] hp; [discriminate|]. injection hp as -> hp. exact (h p hp).
Qed.
Lemma unhashed_unique i u v : Unhashed i u -> Unhashed i v -> u = v.
Proof.
  assert (h : forall a b n m, (forall p, a <> p ++ ["#"]) -> (forall p, b <> p ++ ["#"]) -> a ++ repeat "#" n = b ++ repeat "#" m -> a = b).
  { assert (z : forall (a b : str) m, (forall p, a <> p ++ ["#"]) -> a = b ++ repeat "#" m -> m = 0).
    { intros a b [|m] ha e; [reflexivity|]. exfalso. apply (ha (b ++ repeat "#" m)). rewrite e, <- app_assoc. f_equal. apply repeat_cons. }
    intros a b n. induction n as [|n IH]; intros m ha hb e.
    - cbn [repeat] in e. rewrite app_nil_r in e. assert (m = 0) by (eapply z; [exact ha|exact e]). subst m. cbn in e. rewrite app_nil_r in e. exact e.
    - destruct m as [|m].
      + cbn [repeat] in e. rewrite app_nil_r in e. symmetry in e. assert (q := z b a (S n) hb e). discriminate.
      + apply (IH m ha hb). assert (sw : forall (x : str) k, x ++ repeat "#" (S k) = (x ++ repeat "#" k) ++ ["#"]).
        { intros x k. rewrite <- app_assoc. f_equal. apply repeat_cons. }
        rewrite !sw in e. apply app_inj_tail in e. apply e. }
  intros [(n & e1) h1] [(m & e2) h2]. apply (h u v n m h1 h2). congruence.
Qed.
Lemma unhashed_spec i u : Unhashed i u <-> rstrip_hash i = u.
Proof. split; [intros h; eapply unhashed_unique; [apply rstrip_unhashed|exact h]|intros <-; apply rstrip_unhashed]. Qed.
Lemma id_of_spec s i : id_of s = Some i <-> HasId s i.
Proof.
  unfold id_of. split.
  - destruct (sc_did s) eqn:e; intros h; [injection h as ->; constructor; exact e|apply has_id; assumption].
  - intros [s' i' e|s' i' e1 e2]; [rewrite e|rewrite e1]; auto.
Qed.
Lemma has_id_unique s i j : HasId s i -> HasId s j -> i = j.
Proof. intros h1 h2. apply id_of_spec in h1, h2. congruence. Qed.

(** the URI of a schema: its id without trailing hashes, or else its title as an identifier *)
Theorem schema_uri_iff : forall param s u, schema_uri param s = Ok u <-> SchemaUri param s u.
Proof.
  intros param s u. unfold schema_uri. split.
  - destruct (id_of s) as [i|] eqn:ei; [|discriminate]. apply id_of_spec in ei. destruct (rstrip_hash i) as [|c r] eqn:er.
    + destruct (sc_title s) as [t|] eqn:et; [|discriminate]. destruct (param t) as [|d q] eqn:ep; [discriminate|]. intros h. injection h as <-. rewrite <- ep.
      eapply uri_title; [exact ei|apply unhashed_spec; exact er|exact et|congruence].
    + intros h. injection h as <-. eapply uri_id; [exact ei|apply unhashed_spec; exact er|discriminate].
  - intros [i v h1 h2 h3|i t h1 h2 h3 h4]; apply id_of_spec in h1; rewrite h1; apply unhashed_spec in h2; rewrite h2.
    + destruct v; [congruence|reflexivity].
    + rewrite h3. destruct (param t); [congruence|reflexivity].
Qed.
Print Assumptions schema_uri_iff.
Lemma provides_spec f s : Provides f s <-> exists s0, f_schema f = Some s0 /\ named f s0 = s.
Proof.
  unfold named. split.
  - intros [s' i h e|s' h e]; exists s'; (split; [exact h|]); rewrite e; [|reflexivity]. destruct s'; cbn in *; congruence.
  - intros (s0 & h & <-). destruct (sc_did s0) as [i|] eqn:e; [|apply provides_stem; assumption].
    replace {| sc_did := _; sc_id := _; sc_title := _; sc_body := _ |} with s0 by (destruct s0; cbn in *; congruence). eapply provides_own; eassumption.
Qed.

Section P.
  Context {Q : Type} {EQ : EqDec Q}.
  Variable norm : str -> Q.
  Variable param : str -> str.

  (** a loaded schema is found under its URI however that is spelt, and in the given store; nothing else changes *)
  Theorem load_registers : forall s st u st', load_schema norm param s st = Ok (u, st') ->
    SchemaUri param s u /\
    (forall v, dget (norm v) (st_main st') = if eq_dec (norm v) (norm u) then Some s else dget (norm v) (st_main st)) /\
    match st_user st, st_user st' with
    | Some d, Some d' => forall v, dget v d' = if eq_dec v u then Some s else dget v d
    | None, None => True
    | _, _ => False
    end.
  Proof.
    intros s st u st' h. unfold load_schema in h. destruct (schema_uri param s) as [u'|] eqn:e; [|discriminate]. cbn [rbind] in h. injection h as -> <-.
    apply schema_uri_iff in e. split; [exact e|]. cbn [st_main st_user]. split; [intros v; rewrite dget_dset; reflexivity|].
    destruct (st_user st); [|exact I]. intros v. rewrite dget_dset. reflexivity.
  Qed.
  (** loading fails only for lack of a URI, and then changes nothing *)
  Theorem load_fails : forall s st e, load_schema norm param s st = Err e -> (forall u, ~ SchemaUri param s u) /\
    e = match sc_did s, sc_id s with None, None => AttributeError | _, _ => SchemaError end.
  Proof.
    intros s st e h. unfold load_schema in h. destruct (schema_uri param s) as [u'|e'] eqn:eu; [discriminate|]. cbn [rbind] in h. injection h as ->. split.
    - intros u hu. apply schema_uri_iff in hu. congruence.
    - unfold schema_uri, id_of in eu. destruct (sc_did s) as [i|], (sc_id s) as [j|];
        repeat match type of eu with context [match ?q with _ => _ end] => destruct q end; congruence.
  Qed.

  Lemma load_one_cases st f : (exists s u, Provides f s /\ SchemaUri param s u /\ load_one norm param st f =
      {| st_main := dset (norm u) s (st_main st); st_user := match st_user st with Some d => Some (dset u s d) | None => None end |}) \/
    ((forall s u, Provides f s -> ~ SchemaUri param s u) /\ load_one norm param st f = st).
  Proof.
    unfold load_one, load_file. destruct (f_schema f) as [s0|] eqn:e0.
    - unfold load_schema. destruct (schema_uri param (named f s0)) as [u|e] eqn:eu; cbn [rbind].
      + left. exists (named f s0), u. split; [apply provides_spec; eauto|]. split; [apply schema_uri_iff; exact eu|reflexivity].
      + right. split; [|reflexivity]. intros s u hp hu. apply provides_spec in hp. destruct hp as (s1 & h1 & <-). assert (s1 = s0) by congruence. subst. apply schema_uri_iff in hu. congruence.
    - right. split; [|reflexivity]. intros s u hp. apply provides_spec in hp. destruct hp as (s1 & h1 & _). congruence.
  Qed.
  Lemma provides_unique f s s' : Provides f s -> Provides f s' -> s = s'.
  Proof. intros h1 h2. apply provides_spec in h1, h2. destruct h1 as (a & h1 & <-), h2 as (b & h2 & <-). congruence. Qed.
  Lemma uri_unique s u u' : SchemaUri param s u -> SchemaUri param s u' -> u = u'.
  Proof. intros h1 h2. apply schema_uri_iff in h1, h2. congruence. Qed.

  (** [P] decides which URIs count; [d] sees the schemas of the files whose URI counts, the last one winning *)
  Lemma files_last (P : str -> Prop) (dec : forall u, {P u} + {~ P u}) (get : stores -> option schema) files : forall st,
    (forall st' f s u, Provides f s -> SchemaUri param s u -> get (load_one norm param st' f) = if dec u then Some s else get st') ->
    (exists s, LastOf param P files s /\ get (load_files norm param files st) = Some s) \/
    ((forall f s u, In f files -> Provides f s -> SchemaUri param s u -> ~ P u) /\ get (load_files norm param files st) = get st).
  Proof.
    induction files as [|f files IH]; intros st hg; [right; split; [intros f s u []|reflexivity]|]. cbn [load_files fold_left].
    change (fold_left (load_one norm param) files ?x) with (load_files norm param files x).
    destruct (IH (load_one norm param st f) hg) as [(s & h1 & h2)|(h1 & h2)].
    - left. exists s. split; [apply last_later; exact h1|exact h2].
    - destruct (load_one_cases st f) as [(s & u & hp & hu & e)|(hn & e)].
      + rewrite h2, (hg st f s u hp hu). destruct (dec u) as [y|n].
        * left. exists s. split; [|reflexivity]. eapply last_here; eassumption.
        * right. split; [|reflexivity]. intros f' s' u' [<-|i] hp' hu'; [|eapply h1; eassumption].
          assert (s' = s) by (eapply provides_unique; eassumption). subst s'. assert (u' = u) by (eapply uri_unique; eassumption). subst u'. exact n.
      + right. split; [|rewrite h2, e; reflexivity]. intros f' s' u' [<-|i] hp' hu'; [exfalso; eapply hn; eassumption|eapply h1; eassumption].
  Qed.
  (** after loading a folder, a URI gives the last file's schema with that URI; without such a file, what it gave before *)
  Theorem folder_loaded : forall files st v,
    (exists s, LastOf param (fun u => norm u = norm v) files s /\ dget (norm v) (st_main (load_files norm param files st)) = Some s) \/
    ((forall f s u, In f files -> Provides f s -> SchemaUri param s u -> norm u <> norm v) /\
     dget (norm v) (st_main (load_files norm param files st)) = dget (norm v) (st_main st)).
  Proof.
    intros files st v.
    apply (files_last (fun u => norm u = norm v) (fun u => eq_dec (norm u) (norm v)) (fun st => dget (norm v) (st_main st))).
    intros st' f s u hp hu. destruct (load_one_cases st' f) as [(s' & u' & hp' & hu' & ->)|(hn & _)]; [|exfalso; eapply hn; eassumption].
    assert (s' = s) by (eapply provides_unique; eassumption). subst s'. assert (u' = u) by (eapply uri_unique; eassumption). subst u'.
    cbn [st_main]. rewrite dget_dset. destruct (eq_dec (norm v) (norm u)), (eq_dec (norm u) (norm v)); congruence.
  Qed.
  (** ... and so for the caller's own store, by exact URI *)
  Theorem folder_loaded_user : forall files st d v, st_user st = Some d -> exists d', st_user (load_files norm param files st) = Some d' /\
    ((exists s, LastOf param (fun u => u = v) files s /\ dget v d' = Some s) \/
     ((forall f s u, In f files -> Provides f s -> SchemaUri param s u -> u <> v) /\ dget v d' = dget v d)).
  Proof.
    intros files st d v e.
    assert (keep : forall files st d, st_user st = Some d -> exists d', st_user (load_files norm param files st) = Some d').
    { induction files0 as [|f fs IH]; intros st0 d0 e0; [eauto|]. cbn [load_files fold_left]. change (fold_left (load_one norm param) fs ?x) with (load_files norm param fs x).
      destruct (load_one_cases st0 f) as [(s' & u' & _ & _ & ->)|(_ & ->)]; [|eapply IH; exact e0]. eapply IH. cbn [st_user]. rewrite e0. reflexivity. }
    destruct (keep files st d e) as (d' & e'). exists d'. split; [exact e'|].
    clear keep. revert st d d' e e'. induction files as [|f fs IH]; intros st d d' e e'.
    - right. split; [intros f s u []|]. cbn in e'. congruence.
    - cbn [load_files fold_left] in e'. change (fold_left (load_one norm param) fs ?x) with (load_files norm param fs x) in e'.
      destruct (load_one_cases st f) as [(s & u & hp & hu & el)|(hn & el)]; rewrite el in e'.
      + rewrite e in e'. destruct (IH {| st_main := dset (norm u) s (st_main st); st_user := Some (dset u s d) |} (dset u s d) d' eq_refl e') as [(s1 & h1 & h2)|(h1 & h2)].
        * left. exists s1. split; [apply last_later; exact h1|exact h2].
        * rewrite dget_dset in h2. destruct (eq_dec v u) as [<-|ne].
          { left. exists s. split; [|exact h2]. eapply last_here; [exact hp|exact hu|reflexivity|exact h1]. }
          right. split; [|exact h2]. intros f' s' u' [<-|i] hp' hu'; [|eapply h1; eassumption].
          assert (s' = s) by (eapply provides_unique; eassumption). subst s'. assert (u' = u) by (eapply uri_unique; eassumption). congruence.
      + destruct (IH st d d' e e') as [(s1 & h1 & h2)|(h1 & h2)]; [left; exists s1; split; [apply last_later; exact h1|exact h2]|].
        right. split; [|exact h2]. intros f' s' u' [<-|i] hp' hu'; [exfalso; eapply hn; eassumption|eapply h1; eassumption].
  Qed.
  (** a file that cannot be loaded does not prevent the others from being loaded *)
  Theorem bad_files_ignored : forall fs f gs st, (forall s u, Provides f s -> ~ SchemaUri param s u) ->
    load_files norm param (fs ++ f :: gs) st = load_files norm param (fs ++ gs) st.
  Proof.
    intros fs f gs st h. unfold load_files. rewrite !fold_left_app. cbn [fold_left]. f_equal.
    destruct (load_one_cases (fold_left (load_one norm param) fs st) f) as [(s & u & hp & hu & _)|(_ & e)]; [destruct (h s u hp hu)|exact e].
  Qed.
  Lemma last_in P files s : LastOf param P files s -> exists f u, In f files /\ Provides f s /\ SchemaUri param s u /\ P u.
  Proof. induction 1 as [f s u fs hp hu p _|f fs s _ (f' & u & i & r)]; [exists f, u; cbn; auto|exists f', u; cbn; auto]. Qed.
  (** files with different URIs may be loaded in any order *)
  Theorem order_irrelevant : forall files files' st v, Permutation files files' ->
    (forall f g s s' u u', In f files -> In g files -> Provides f s -> Provides g s' -> SchemaUri param s u -> SchemaUri param s' u' -> norm u = norm u' -> s = s') ->
    dget (norm v) (st_main (load_files norm param files st)) = dget (norm v) (st_main (load_files norm param files' st)).
  Proof.
    intros files files' st v p d. destruct (folder_loaded files st v) as [(s & h1 & ->)|(h1 & ->)], (folder_loaded files' st v) as [(s' & h1' & ->)|(h1' & ->)]; [| | |reflexivity].
    - apply last_in in h1, h1'. destruct h1 as (f & u & i & hp & hu & e), h1' as (g & u' & i' & hp' & hu' & e'). f_equal.
      eapply (d f g); try eassumption; [eapply Permutation_in; [apply Permutation_sym; exact p|exact i']|congruence].
    - apply last_in in h1. destruct h1 as (f & u & i & hp & hu & e). exfalso. eapply h1'; [eapply Permutation_in; [exact p|exact i]|exact hp|exact hu|exact e].
    - apply last_in in h1'. destruct h1' as (f & u & i & hp & hu & e). exfalso. eapply h1; [eapply Permutation_in; [apply Permutation_sym; exact p|exact i]|exact hp|exact hu|exact e].
  Qed.

  (** deviations *)
  (** a schema without id but with a title is not loaded under its title: AttributeError *)
  Theorem title_without_id_refuted : forall s st, sc_did s = None -> sc_id s = None -> load_schema norm param s st = Err AttributeError.
  Proof. intros s st e1 e2. unfold load_schema, schema_uri, id_of. rewrite e1, e2. reflexivity. Qed.
  (** loading a file that cannot be read raises ValueError *)
  Theorem unreadable_file : forall f st, f_schema f = None -> load_file norm param f st = Err ValueError.
  Proof. intros f st e. unfold load_file. rewrite e. reflexivity. Qed.
  (** a file whose schema has an "id" but no "$id" is registered under the name of the file *)
  Theorem file_id_ignored_refuted : forall f s i st, f_schema f = Some s -> sc_did s = None -> sc_id s = Some i ->
    f_stem f <> [] -> ~ In "#" (f_stem f) -> exists st', load_file norm param f st = Ok (f_stem f, st').
  Proof.
    intros f s i st e e1 e2 ne nh. unfold load_file. rewrite e. unfold load_schema.
    assert (h : SchemaUri param (named f s) (f_stem f)).
    { eapply uri_id; [apply has_did; unfold named; cbn; rewrite e1; reflexivity| |exact ne].
      split; [exists 0; symmetry; apply app_nil_r|]. intros p hp. apply nh. rewrite hp. apply in_or_app. right. left. reflexivity. }
    apply schema_uri_iff in h. rewrite h. cbn [rbind]. eauto.
  Qed.
End P.
Print Assumptions unreadable_file. Print Assumptions load_registers. Print Assumptions load_fails. Print Assumptions folder_loaded. Print Assumptions folder_loaded_user.
Print Assumptions bad_files_ignored. Print Assumptions order_irrelevant. Print Assumptions title_without_id_refuted. Print Assumptions file_id_ignored_refuted.

(** * Folders *)
Section F.
  Context {F : Type} {EF : EqDec F}.
  Variable exists_ : F -> bool.
  Variable holds : F -> str -> option str.
  Lemma pick_first_spec l path p : pick_first holds l path = Some p <-> FirstIn holds path p l.
  Proof.
    split.
    - induction l as [|f l IH]; [discriminate|]. cbn [pick_first]. destruct (holds f path) eqn:e; intros h; [injection h as ->; constructor; exact e|apply first_later; auto].
    - induction 1 as [f l e|f l e _ IH]; cbn [pick_first]; rewrite e; auto.
  Qed.
  Lemma split_first_spec s a b : split_first s = Some (a, b) <-> s = a ++ "/" :: b /\ ~ In "/" a.
  Proof.
    revert a b. induction s as [|c s IH]; intros a b; cbn [split_first]; [split; [discriminate|intros [h _]; destruct a; discriminate]|].
    destruct (Ascii.eqb_spec c "/") as [->|ne].
    - split; [intros h; injection h as <- <-; split; [reflexivity|intros []]|]. intros [h n]. destruct a as [|x a]; [injection h as ->; reflexivity|]. injection h as <- _. destruct n. left. reflexivity.
    - destruct (split_first s) as [[a' b']|] eqn:e.
      + split.
        * intros h. injection h as <- <-. destruct (proj1 (IH a' b') eq_refl) as [-> n]. split; [reflexivity|]. intros [h|h]; [congruence|exact (n h)].
        * intros [h n]. destruct a as [|x a]; [injection h; congruence|]. injection h as <- h. assert (q : Some (a', b') = Some (a, b)) by (apply IH; split; [exact h|intros i; apply n; right; exact i]). congruence.
      + split; [discriminate|]. intros [h n]. destruct a as [|x a]; [injection h; congruence|]. injection h as <- h.
        assert (q : None = Some (a, b)) by (apply IH; split; [exact h|intros i; apply n; right; exact i]). discriminate.
  Qed.
  (** "module/path" is looked for in the folders of the module if it is registered, every other name in all folders *)
  Theorem find_in_module : forall reg m path l p, ~ In "/" m -> ~ In "\" m -> ~ In "\" path -> dget m reg = Some l ->
    (find_one holds reg (m ++ "/" :: path) = Some p <-> FirstIn holds path p l).
  Proof.
    intros reg m path l p n1 n2 n3 e. unfold find_one, slashes.
    assert (id : forall s : str, ~ In "\" s -> map (fun c => if Ascii.eqb c "\" then "/" else c) s = s).
    { induction s as [|c s IH]; intros n; [reflexivity|]. cbn [map]. destruct (Ascii.eqb_spec c "\") as [->|_]; [destruct n; left; reflexivity|]. f_equal. apply IH. intros i. apply n. right. exact i. }
    rewrite map_app. cbn [map]. rewrite (id m n2), (id path n3). change (Ascii.eqb "/" "\") with false. cbn [app].
    rewrite (proj2 (split_first_spec _ m path)) by (split; [reflexivity|exact n1]). rewrite e. apply pick_first_spec.
  Qed.
  Theorem find_everywhere : forall reg name p, ~ In "\" name -> (forall m path, name = m ++ "/" :: path -> ~ In "/" m -> dget m reg = None) ->
    (find_one holds reg name = Some p <-> FirstIn holds name p (concat (map snd reg))).
  Proof.
    intros reg name p n h. unfold find_one.
    assert (id : slashes name = name).
    { clear h. unfold slashes. induction name as [|c s IH]; [reflexivity|]. cbn [map]. destruct (Ascii.eqb_spec c "\") as [->|_]; [destruct n; left; reflexivity|]. f_equal. apply IH. intros i. apply n. right. exact i. }
    rewrite id. destruct (split_first name) as [[m path]|] eqn:e; [|apply pick_first_spec]. apply split_first_spec in e. destruct e as [e1 e2].
    rewrite (h m path e1 e2). apply pick_first_spec.
  Qed.
  (** backslashes count as slashes *)
  Theorem find_backslash : forall reg name, find_one holds reg (slashes name) = find_one holds reg name.
  Proof.
    intros reg name. unfold find_one. replace (slashes (slashes name)) with (slashes name); [reflexivity|]. unfold slashes. rewrite map_map. apply map_ext. intros c.
    destruct (Ascii.eqb_spec c "\") as [->|ne]; [reflexivity|]. destruct (Ascii.eqb_spec c "\"); congruence.
  Qed.
  (** folders of a module are registered once, in order, if they exist; other modules are untouched *)
  Theorem folder_registered : forall m f reg m', exists l', 
    dget m' (register_folder exists_ m f reg) = (if exists_ f then if eq_dec m' m then Some l' else dget m' reg else dget m' reg) /\
    let l := match dget m reg with Some l => l | None => [] end in
    (NoDup l -> NoDup l') /\ (forall g, In g l' <-> In g l \/ g = f) /\ exists r, l' = l ++ r.
  Proof.
    intros m f reg m'. set (l := match dget m reg with Some l => l | None => [] end). exists (if mem f l then l else l ++ [f]). split.
    - unfold register_folder. destruct (exists_ f); [|reflexivity]. fold l. rewrite dget_dset. reflexivity.
    - cbn zeta. destruct (mem f l) eqn:e.
      + apply mem_In in e. split; [auto|]. split; [|exists []; symmetry; apply app_nil_r]. intros g. split; [auto|]. intros [h| ->]; assumption.
      + apply mem_not_In in e. split; [|split; [|exists [f]; reflexivity]].
        * intros n. apply NoDup_app_intro; [exact n|constructor; [intros []|constructor]|]. intros x i [<-|[]]. exact (e i).
        * intros g. rewrite in_app_iff. cbn. intuition.
  Qed.
  (** a file in another module's subfolder is hidden by a module of the name of the subfolder *)
  Theorem find_hidden_refuted : forall reg m path, ~ In "/" m -> ~ In "\" m -> ~ In "\" path -> dget m reg = Some [] -> find_one holds reg (m ++ "/" :: path) = None.
  Proof.
    intros reg m path n1 n2 n3 e. destruct (find_one holds reg (m ++ "/" :: path)) as [p|] eqn:ef; [|reflexivity].
    apply (find_in_module reg m path [] p n1 n2 n3 e) in ef. inversion ef.
  Qed.
End F.
Print Assumptions find_in_module. Print Assumptions find_everywhere. Print Assumptions find_backslash. Print Assumptions folder_registered. Print Assumptions find_hidden_refuted.

Definition sch d i t b := {| sc_did := d; sc_id := i; sc_title := t; sc_body := b |}.
Example load_case :
  let files := [{| f_stem := chars "a"; f_schema := Some (sch (Some (chars "http://x#")) None None 1) |}; {| f_stem := chars "bad"; f_schema := None |};
                {| f_stem := chars "b"; f_schema := Some (sch None (Some (chars "http://y#")) None 2) |}; {| f_stem := chars "c"; f_schema := Some (sch (Some (chars "#")) None (Some (chars "T")) 3) |};
                {| f_stem := chars "d"; f_schema := Some (sch (Some (chars "http://x")) None None 4) |}] in
  let st := load_files (fun s => s) (fun t => t) files {| st_main := []; st_user := None |} in
  map (fun p => (fst p, sc_body (snd p))) (st_main st) = [(chars "http://x", 4); (chars "b", 2); (chars "T", 3)].
Proof. reflexivity. Qed.
Example find_case :
  let holds (f : nat) (p : str) := if Nat.eqb f 2 then Some (chars "found" ++ p) else None in
  let reg := register_folder (fun f => Nat.ltb 0 f) (chars "m") 2 (register_folder (fun f => Nat.ltb 0 f) (chars "n") 1 (register_folder (fun f => Nat.ltb 0 f) (chars "k") 0 [])) in
  dkeys reg = [chars "n"; chars "m"] /\ find_one holds reg (chars "m\x") = Some (chars "foundx") /\ find_one holds reg (chars "n/x") = None /\
  find_one holds reg (chars "k/x") = Some (chars "foundk/x").
Proof. repeat split. Qed.
