(** C95: which schemas are refused when a type is made. *)
From Verif Require Import Base PyVal Cmp_Model Cmp_Spec Cmp_Proofs Ms_Model Ms_Spec.
Local Open Scope string_scope. Local Open Scope list_scope.

(** * Scopes *)
Lemma all_scopes {A} (f : A -> scopes -> out * scopes) l : (forall x st, snd (f x st) = st) -> forall st, snd (all f l st) = st.
Proof.
  intros h. induction l as [|x l IH]; intros st; cbn [all]; [reflexivity|]. specialize (h x st).
  destruct (f x st) as [[a [e|]] st1]; cbn [snd] in h; subst st1; [reflexivity|]. specialize (IH st).
  destruct (all f l st) as [[b e] st2]. exact IH.
Qed.
Lemma any_scopes (f : ms -> scopes -> out * scopes) l : (forall x st, snd (f x st) = st) -> forall st, snd (any f l st) = st.
Proof.
  intros h. induction l as [|x l IH]; intros st; cbn [any]; [reflexivity|]. specialize (h x st).
  destruct (f x st) as [[[|p a] [e|]] st1]; cbn [snd] in h; subst st1; try reflexivity. apply IH.
Qed.
Lemma kind_scopes kinds k v st r : snd r = st -> snd (for_kind kinds k v st r) = st.
Proof. intros h. unfold for_kind. destruct (kinds k v) as [[|]|]; [exact h | reflexivity | reflexivity]. Qed.
Lemma keyword_scopes kinds docs uniq errs kws v k st : (forall s v st, snd (errs s v st) = st) -> snd (keyword kinds docs uniq errs kws v k st) = st.
Proof.
  intros h. destruct k; cbn [keyword]; try reflexivity.
  - destruct st as [|here st]; [reflexivity|]. destruct (docs here) as [s|]; [|reflexivity].
    pose proof (h s v (if anchored s then here :: here :: st else here :: st)) as h1. destruct (errs s v _) as [o st2]. cbn [snd] in *. subst st2.
    destruct (anchored s); reflexivity.
  - apply all_scopes. intros s st1. apply h.
  - apply any_scopes. intros s st1. apply h.
  - apply kind_scopes, all_scopes. intros [p s] st1. cbn [fst snd]. destruct (dget p (members v)); [apply h | reflexivity].
  - apply kind_scopes, all_scopes. intros [p s0] st1. apply h.
  - apply kind_scopes, all_scopes. intros [p s0] st1. apply h.
  - apply kind_scopes. reflexivity.
  - destruct b; [apply kind_scopes|]; reflexivity.
Qed.
Lemma errors_scopes kinds docs uniq fuel : forall s v st, snd (errors kinds docs uniq fuel s v st) = st.
Proof.
  induction fuel as [|f IH]; intros s v st; cbn [errors]; [reflexivity|]. destruct s as [[|] | id anchor kws]; [reflexivity | reflexivity|].
  match goal with |- context [all ?f ?l ?s] => pose proof (all_scopes f l (fun k st0 => keyword_scopes kinds docs uniq _ kws v k st0 IH) s) as h; destruct (all f l s) as [o st2] end.
  cbn [snd] in *. subst st2. destruct id; reflexivity.
Qed.

(** Checking a schema, against any meta-schema and whatever comes out of it, leaves the scopes of the shared resolver as they were; so
    schemas checked one after the other are checked as if each came first. *)
Theorem checks_independent kinds docs uniq meta fuel vs st :
  checks kinds docs uniq meta fuel vs st = (map (fun v => fst (check kinds docs uniq meta fuel v st)) vs, st).
Proof.
  induction vs as [|v vs IH]; cbn [checks map]; [reflexivity|].
  assert (h : snd (check kinds docs uniq meta fuel v st) = st).
  { unfold check. pose proof (errors_scopes kinds docs uniq fuel meta v st) as h. destruct (errors _ _ _ fuel meta v st) as [[es e] st']. exact h. }
  destruct (check kinds docs uniq meta fuel v st) as [r st1]. cbn [fst snd] in *. subst st1. rewrite IH. reflexivity.
Qed.

(** * The meta-schema of the library *)
Lemma all_quiet {A} (f : A -> scopes -> out * scopes) l st : (forall x, In x l -> f x st = (([], None), st)) -> all f l st = (([], None), st).
Proof.
  induction l as [|x l IH]; intros h; cbn [all]; [reflexivity|]. rewrite (h x (or_introl eq_refl)), IH by (intros y hy; apply h; right; exact hy). reflexivity.
Qed.
Lemma all_skip {A} (f : A -> scopes -> out * scopes) x l st : f x st = (([], None), st) -> all f (x :: l) st = all f l st.
Proof. intros h. cbn [all]. rewrite h. destruct (all f l st) as [[b e] st2]. reflexivity. Qed.
Lemma all_exact {A} (f : A -> scopes -> out * scopes) (R : A -> list pstep -> Prop) st l :
  (forall x, In x l -> exists es, f x st = ((es, None), st) /\ forall p, In p es <-> R x p) ->
  exists es, all f l st = ((es, None), st) /\ forall p, In p es <-> exists x, In x l /\ R x p.
Proof.
  induction l as [|x l IH]; intros h; cbn [all].
  - exists []. split; [reflexivity|]. intros p. split; [intros [] | intros (x & [] & _)].
  - destruct (h x (or_introl eq_refl)) as (a & ha & hp). destruct IH as (b & hb & hq); [intros y hy; apply h; right; exact hy|].
    rewrite ha, hb. exists (a ++ b). split; [reflexivity|]. intros p. rewrite in_app_iff, hp, hq. split.
    + intros [i | (y & i & r)]; [exists x; split; [left; reflexivity | exact i] | exists y; split; [right; exact i | exact r]].
    + intros (y & [-> | i] & r); [left; exact r | right; exists y; split; assumption].
Qed.

Section Meta.
  Variable uniq : list pyval -> bool.
  Notation run := (errors json_kinds meta_docs uniq).

  Lemma run_obj f id a kws v st : run (S f) (MObj id a kws) v st =
    let '(o, st2) := all (keyword json_kinds meta_docs uniq (run f) kws v) (match refers kws with [] => kws | rs => rs end) (match id with Some u => u :: st | None => st end) in
    (o, match id with Some _ => tl st2 | None => st2 end).
  Proof. reflexivity. Qed.

  (** [s] never finds an error, given enough calls *)
  Definition quiet (n : nat) (s : ms) : Prop := forall m v st, n <= m -> run m s v st = (([], None), st).
  Lemma quiet_refer u : quiet 1 (refer u).
  Proof. intros [|m] v st h; [lia|]. reflexivity. Qed.
  Lemma quiet_note l : quiet 1 (note l).
  Proof.
    intros [|m] v st h; [lia|]. unfold note. rewrite run_obj.
    assert (e : refers (map MNote l) = []) by (clear; induction l; [reflexivity | exact IHl]). rewrite e.
    rewrite (all_quiet _ (map MNote l) st); [reflexivity|]. intros k hk. apply in_map_iff in hk. destruct hk as (n & <- & _). reflexivity.
  Qed.
  Lemma quiet_more n : quiet 2 (MObj None None [MNote n; MMore (note ["type"])]).
  Proof.
    intros [|m] v st h; [lia|]. rewrite run_obj. cbn [refers filter]. rewrite all_quiet; [reflexivity|].
    intros k [<- | [<- | []]]; [reflexivity|]. cbn [keyword]. unfold for_kind. cbn [json_kinds].
    change (json_kinds "object" v) with (Some (match v with VDict _ => true | _ => false end)). destruct v; try reflexivity.
    apply all_quiet. intros kx _. rewrite (quiet_note ["type"]) by lia. reflexivity.
  Qed.
  Lemma quiet_items : quiet 2 (MObj None None [MNote "type"; MItems (note ["type"; "format"]); MNote "$comment"]).
  Proof.
    intros [|m] v st h; [lia|]. rewrite run_obj. cbn [refers filter]. rewrite all_quiet; [reflexivity|].
    intros k [<- | [<- | [<- | []]]]; [reflexivity| |reflexivity]. cbn [keyword]. unfold for_kind.
    change (json_kinds "array" v) with (Some (match v with VList _ => true | _ => false end)). destruct v; try reflexivity.
    apply all_quiet. intros kx _. rewrite (quiet_note ["type"; "format"]) by lia. reflexivity.
  Qed.
  Lemma quiet_type l : quiet 2 (MObj None None [MAnyOf (refer (draft ++ "validation#/$defs/simpleTypes") :: l)]).
  Proof.
    intros [|m] v st h; [lia|]. rewrite run_obj. cbn [refers filter]. rewrite all_quiet; [reflexivity|].
    intros k [<- | []]. cbn [keyword any]. rewrite quiet_refer by lia. reflexivity.
  Qed.

  Definition good (v : pyval) : Prop :=
    exists n, forall m st, n <= m -> exists es, run m meta_schema v st = ((es, None), st) /\ forall p, In p es <-> Offends v p.

  Lemma recursive n v : (forall m st, n <= m -> exists es, run m meta_schema v st = ((es, None), st) /\ forall p, In p es <-> Offends v p) ->
    forall m st, S n <= m -> exists es, run m (MObj None None [MRecursive]) v (meta_uri :: st) = ((es, None), meta_uri :: st) /\ forall p, In p es <-> Offends v p.
  Proof.
    intros h [|m] st hm; [lia|]. destruct (h m (meta_uri :: meta_uri :: st) ltac:(lia)) as (es & he & hp). exists es. split; [|exact hp].
    rewrite run_obj. cbn [refers filter all keyword].
    change (meta_docs meta_uri) with (Some meta_schema). cbn [anchored meta_schema]. change (anchored meta_schema) with true. cbv iota.
    rewrite he. cbn [tl]. rewrite app_nil_r. reflexivity.
  Qed.
  (** enough calls for all the members *)
  Lemma all_good (d : list (string * pyval)) : (forall k x, In (k, x) d -> good x) ->
    exists n, forall k x, In (k, x) d -> forall m st, n <= m -> exists es, run m meta_schema x st = ((es, None), st) /\ forall p, In p es <-> Offends x p.
  Proof.
    induction d as [|[k x] d IH]; intros h; [exists 0; intros k x []|].
    destruct (h k x (or_introl eq_refl)) as (n1 & h1). destruct IH as (n2 & h2); [intros k' x' i; apply (h k' x'); right; exact i|].
    exists (n1 + n2). intros k' x' [e | i] m st hm; [injection e as <- <-; apply h1; lia | apply (h2 k' x' i); lia].
  Qed.
  Lemma definitions_exact d n : (forall k x, In (k, x) d -> forall m st, n <= m -> exists es, run m meta_schema x st = ((es, None), st) /\ forall p, In p es <-> Offends x p) ->
    forall m st, S (S n) <= m -> exists es,
      run m (MObj None None [MNote "$comment"; MNote "type"; MMore (MObj None None [MRecursive]); MNote "default"]) (VDict d) (meta_uri :: st) = ((es, None), meta_uri :: st) /\
      forall p, In p es <-> exists k x q, In (k, x) d /\ Offends x q /\ p = At k :: q.
  Proof.
    intros h [|m] st hm; [lia|]. rewrite run_obj. cbn [refers filter all keyword declared flat_map app].
    unfold for_kind. change (json_kinds "object" (VDict d)) with (Some true). cbv iota. cbn [members].
    rewrite (filter_all (fun kx : string * pyval => negb (mem (fst kx) []))) by reflexivity.
    destruct (all_exact (fun kx st0 => under (At (fst kx)) (run m (MObj None None [MRecursive]) (snd kx) st0))
                (fun kx p => exists q, Offends (snd kx) q /\ p = At (fst kx) :: q) (meta_uri :: st) d) as (es & he & hp).
    { intros [k x] i. cbn [fst snd]. destruct (recursive n x (h k x i) m st ltac:(lia)) as (es & he & hp). rewrite he. unfold under. cbn [fst snd].
      eexists. split; [reflexivity|]. intros p. rewrite in_map_iff. split.
      - intros (q & <- & iq). exists q. split; [apply hp; exact iq | reflexivity].
      - intros (q & ho & ->). exists q. split; [reflexivity | apply hp; exact ho]. }
    rewrite he. exists es. cbn [app]. rewrite app_nil_r. split; [reflexivity|]. intros p. rewrite hp. split.
    - intros ([k x] & i & q & ho & ->). exists k, x, q. repeat split; assumption.
    - intros (k & x & q & i & ho & ->). exists (k, x). split; [exact i|]. exists q. split; [exact ho | reflexivity].
  Qed.
  Lemma dependencies_quiet d n : (forall k x, In (k, x) d -> forall m st, n <= m -> exists es, run m meta_schema x st = ((es, None), st) /\ forall p, In p es <-> Offends x p) ->
    forall m st, S (S (S n)) <= m ->
      run m (MObj None None [MNote "$comment"; MNote "type"; MMore (MObj None None [MAnyOf [MObj None None [MRecursive]; string_array]])]) (VDict d) (meta_uri :: st) =
      (([], None), meta_uri :: st).
  Proof.
    intros h [|m] st hm; [lia|]. rewrite run_obj. cbn [refers filter]. rewrite all_quiet; [reflexivity|].
    intros k [<- | [<- | [<- | []]]]; [reflexivity | reflexivity|]. cbn [keyword declared flat_map app].
    unfold for_kind. change (json_kinds "object" (VDict d)) with (Some true). cbv iota. cbn [members]. apply all_quiet.
    intros [k x] i. apply filter_In in i. destruct i as [i _]. cbn [fst snd]. destruct m as [|m]; [lia|]. rewrite run_obj. cbn [refers filter all keyword any].
    destruct (recursive n x (h k x i) m st ltac:(lia)) as (es & he & _). rewrite he. destruct es as [|e es]; [reflexivity|].
    unfold string_array. rewrite quiet_refer by lia. reflexivity.
  Qed.
  Lemma not_object v m st : 1 <= m -> (forall l, v <> VDict l) ->
    run m (MObj None None [MNote "$comment"; MNote "type"; MMore (MObj None None [MRecursive]); MNote "default"]) v st = (([], None), st) /\
    run m (MObj None None [MNote "$comment"; MNote "type"; MMore (MObj None None [MAnyOf [MObj None None [MRecursive]; string_array]])]) v st = (([], None), st).
  Proof. intros hm h. destruct m as [|m]; [lia|]. destruct v as [| | | | | |l|]; try (split; reflexivity). destruct (h l eq_refl). Qed.
  Lemma in_enum v l : existsb (fun e => val_eq v e) (map VStr l) = true <-> exists t, v = VStr t /\ In t l.
  Proof.
    rewrite existsb_exists. split.
    - intros (e & i & h). apply in_map_iff in i. destruct i as (t & <- & i). exists t. split; [|exact i].
      apply val_eq_spec in h. inversion h as [| a b z h1 h2 | | | | |]; subst; [inversion h2 | reflexivity].
    - intros (t & -> & i). exists (VStr t). split; [apply in_map; exact i|]. apply val_eq_spec. constructor.
  Qed.

  Lemma run_enum l w m st : run (S m) (MObj None None [MEnum l]) w st = ((if existsb (fun e => val_eq w e) l then [] else [[]], None), st).
  Proof. rewrite run_obj. cbn [refers filter all keyword]. unfold if_bad. destruct (existsb (fun e => val_eq w e) l); reflexivity. Qed.

  Lemma meta_run v m st : 3 <= m -> run (S m) meta_schema v st =
    let '(o, st2) := keyword json_kinds meta_docs uniq (run m) [] v (MProps meta_props) (meta_uri :: st) in (o, tl st2).
  Proof.
    intros hm. unfold meta_schema. rewrite run_obj. cbn [refers filter].
    set (p := MProps meta_props). do 4 (rewrite all_skip by reflexivity).
    assert (e : forall kws, keyword json_kinds meta_docs uniq (run m) kws v (MAllOf (map (fun n => refer (draft ++ n)) ["core"; "applicator"; "validation"; "meta-data"; "format"; "content"])) (meta_uri :: st) = (([], None), meta_uri :: st)).
    { intros kws. cbn [keyword]. apply all_quiet. intros s i. apply in_map_iff in i. destruct i as (n & <- & _). apply quiet_refer. lia. }
    rewrite all_skip by (apply e). cbn [all]. unfold p. cbn [keyword].
    destruct (for_kind json_kinds "object" v (meta_uri :: st) _) as [[a [f|]] st2]; [reflexivity|]. rewrite app_nil_r. reflexivity.
  Qed.

  (** every schema, and every member of it *)
  Lemma every v : good v /\ match v with VDict l => forall k x, In (k, x) l -> good x | _ => True end.
  Proof.
    assert (plain : forall v, (forall l, v <> VDict l) -> good v).
    { intros w hw. exists 4. intros [|m] st hm; [lia|]. exists []. split.
      - rewrite meta_run by lia. cbn [keyword]. unfold for_kind. destruct w as [| | | | | |l|]; try reflexivity. destruct (hw l eq_refl).
      - intros p. split; [intros []|]. intros h. inversion h; subst; destruct (hw l eq_refl). }
    induction v as [|b|z|s|l _|l _|d IH|n] using pyval_ind'; try (split; [apply plain; discriminate | exact I]).
    split; [|intros k x i; apply (IH k x i)].
    (* calls needed under 'definitions' and 'dependencies' *)
    assert (need : forall name, exists n, forall ds, dget name d = Some (VDict ds) -> forall k x, In (k, x) ds ->
              forall m st, n <= m -> exists es, run m meta_schema x st = ((es, None), st) /\ forall p, In p es <-> Offends x p).
    { intros name. destruct (dget name d) as [w|] eqn:e; [|exists 0; discriminate]. apply dget_In in e. destruct (IH _ _ e) as [_ hw].
      destruct w as [| | | | | |ds|]; try (exists 0; discriminate). destruct (all_good ds hw) as (n & hn). exists n. intros ds' he. injection he as <-. exact hn. }
    destruct (need "definitions") as (n1 & h1). destruct (need "dependencies") as (n2 & h2). exists (5 + n1 + n2).
    intros [|m] st hm; [lia|]. rewrite meta_run by lia. cbn [keyword]. unfold for_kind. change (json_kinds "object" (VDict d)) with (Some true). cbv iota. cbn [members].
    destruct (all_exact (fun ps st0 => match dget (fst ps) d with Some x => under (At (fst ps)) (run m (snd ps) x st0) | None => (([], None), st0) end)
      (fun ps p => (fst ps = "definitions" /\ exists ds k x q, dget "definitions" d = Some (VDict ds) /\ In (k, x) ds /\ Offends x q /\ p = At "definitions" :: At k :: q) \/
                   (fst ps = "complexTypes" /\ exists w, dget "complexTypes" d = Some w /\ ~ (exists t, w = VStr t /\ In t complex_types) /\ p = [At "complexTypes"]))
      (meta_uri :: st) meta_props) as (es & he & hp).
    { assert (silent : forall name s, name <> "definitions" -> name <> "complexTypes" ->
          (forall x, dget name d = Some x -> run m s x (meta_uri :: st) = (([], None), meta_uri :: st)) ->
          exists es, match dget name d with Some x => under (At name) (run m s x (meta_uri :: st)) | None => (([], None), meta_uri :: st) end = ((es, None), meta_uri :: st) /\
            forall p, In p es <-> (name = "definitions" /\ exists ds k x q, dget "definitions" d = Some (VDict ds) /\ In (k, x) ds /\ Offends x q /\ p = At "definitions" :: At k :: q) \/
                   (name = "complexTypes" /\ exists w, dget "complexTypes" d = Some w /\ ~ (exists t, w = VStr t /\ In t complex_types) /\ p = [At "complexTypes"])).
      { intros name s hn1 hn2 hs. exists []. split.
        - destruct (dget name d) as [x|]; [|reflexivity]. rewrite (hs x eq_refl). reflexivity.
        - intros p. split; [intros [] | intros [[e _] | [e _]]; contradiction]. }
      intros [name s] i. cbn [fst snd]. unfold meta_props in i. cbn [In] in i.
      destruct i as [e | i].
      { injection e as <- <-. destruct (dget "definitions" d) as [w|] eqn:ew.
        - assert (H : (exists ds, w = VDict ds) \/ (forall l, w <> VDict l)) by (destruct w; try (right; discriminate); left; eexists; reflexivity).
          destruct H as [H | H].
          + destruct H as (ds & ->). destruct (definitions_exact ds n1 (h1 ds eq_refl) m st ltac:(lia)) as (es & he & hp). rewrite he. unfold under. cbn [fst snd].
            eexists. split; [reflexivity|]. intros p. rewrite in_map_iff. split.
            * intros (q & <- & iq). apply hp in iq. destruct iq as (k & x & q' & i & ho & ->). left. split; [reflexivity|]. exists ds, k, x, q'. repeat split; assumption.
            * intros [[_ (ds' & k & x & q & e & i & ho & ->)] | [e _]]; [|discriminate]. injection e as <-. exists (At k :: q). split; [reflexivity|]. apply hp. exists k, x, q. repeat split; assumption.
          + rewrite (proj1 (not_object w m (meta_uri :: st) ltac:(lia) H)). exists []. split; [reflexivity|]. intros p. split; [intros []|].
            intros [[_ (ds & k & x & q & e & _)] | [e _]]; [|discriminate]. injection e as e. destruct (H ds e).
        - exists []. split; [reflexivity|]. intros p. split; [intros [] | intros [[_ (ds & k & x & q & e & _)] | [e _]]; discriminate]. }
      destruct i as [e | i].
      { injection e as <- <-. apply silent; [discriminate | discriminate|]. intros x ex. destruct x as [| | | | | |ds|]; try (apply not_object; [lia | discriminate]).
        apply (dependencies_quiet ds n2 (h2 ds ex)). lia. }
      repeat (destruct i as [e | i]; [injection e as <- <-;
        first [ apply silent; [discriminate | discriminate|]; intros x _; first [apply quiet_refer; lia | apply quiet_note; lia | apply quiet_items; lia | apply quiet_more; lia | apply quiet_type; lia]
              | idtac ] |]); [| destruct i].
      destruct (dget "complexTypes" d) as [w|].
      - destruct m as [|m]; [lia|]. change (run (S m) _ w (meta_uri :: st)) with (run (S m) (MObj None None [MEnum (map VStr complex_types)]) w (meta_uri :: st)).
        rewrite run_enum. destruct (existsb (fun e => val_eq w e) (map VStr complex_types)) eqn:ee.
        + apply in_enum in ee. exists []. split; [reflexivity|]. intros p. split; [intros [] | intros [[e _] | [_ (w' & e & h & _)]]; [discriminate|]]. injection e as <-. contradiction.
        + eexists. split; [reflexivity|]. intros p. split.
          * intros [<- | []]. right. split; [reflexivity|]. exists w. split; [reflexivity|]. split; [|reflexivity]. intros h. apply in_enum in h. congruence.
          * intros [[e _] | [_ (w' & _ & _ & ->)]]; [discriminate | left; reflexivity].
      - exists []. split; [reflexivity|]. intros p. split; [intros [] | intros [[e _] | [_ (w & e & _)]]; discriminate]. }
    exists es. split; [setoid_rewrite he; reflexivity|]. intros p. rewrite hp. split.
    - intros (ps & _ & [[_ (ds & k & x & q & e & i & ho & ->)] | [_ (w & e & h & ->)]]); [eapply off_definition; eassumption | apply (off_here d w); assumption].
    - intros h. inversion h as [l w e hn | l ds k x q e i ho]; subst.
      + exists ("complexTypes", MObj None None [MEnum (map VStr complex_types)]). split; [unfold meta_props; cbn [In]; tauto|]. right. split; [reflexivity|]. exists w. repeat split; assumption.
      + eexists. split; [left; reflexivity|]. left. split; [reflexivity|]. exists ds, k, x, q. repeat split; assumption.
  Qed.
End Meta.

(** With a type checker that knows objects and arrays, a schema is refused exactly when it, or one of its 'definitions' in any depth, gives
    an unknown 'complexTypes'; the place that is reported is such a place, and the scopes are as before. (Enough calls: Python's own limit
    on nested calls is not reached.) *)
Theorem check_exact uniq v st : exists n, forall m, n <= m ->
  ((forall p, ~ Offends v p) -> check json_kinds meta_docs uniq meta_schema m v st = (Accepted, st)) /\
  (forall p, Offends v p -> exists q, Offends v q /\ check json_kinds meta_docs uniq meta_schema m v st = (Refused q, st)).
Proof.
  destruct (every uniq v) as [(n & hn) _]. exists n. intros m hm. destruct (hn m st hm) as (es & he & hp). unfold check. rewrite he. split.
  - intros h. destruct es as [|p es]; [reflexivity|]. destruct (h p). apply hp. left. reflexivity.
  - intros p h. apply hp in h. destruct es as [|q es]; [destruct h|]. exists q. split; [apply hp; left; reflexivity | reflexivity].
Qed.

(** Not what is expected: the meta-schema of JSON schema is not looked at. Whatever the keywords of a schema are given, and whatever is in
    its '$defs' or its properties, it is accepted, as long as it has neither 'complexTypes' nor 'definitions'. *)
Theorem anything_accepted_refuted uniq v st :
  (forall l, v = VDict l -> ~ In "complexTypes" (map fst l) /\ ~ In "definitions" (map fst l)) ->
  exists n, forall m, n <= m -> check json_kinds meta_docs uniq meta_schema m v st = (Accepted, st).
Proof.
  intros h. destruct (check_exact uniq v st) as (n & hn). exists n. intros m hm. apply (hn m hm). intros p ho.
  inversion ho as [l w e _ | l ds k s q e _ _]; subst; destruct (h l eq_refl) as [h1 h2]; apply dget_Some_key in e; [apply h1 | apply h2]; exact e.
Qed.

(** Not what is expected: with the type checker that knows no type, which is what [create] uses when none is given, checking fails with
    UnknownType for every schema. *)
Theorem no_type_checker_refuted uniq v st m : 3 <= m -> check no_kinds meta_docs uniq meta_schema m v st = (Failed UnknownType, st).
Proof. intros h. do 3 (destruct m as [|m]; [lia|]). reflexivity. Qed.

(** * Concrete schemas *)
Definition ex_bad : pyval :=
  VDict [("type", VInt 7); ("minimum", VStr "low"); ("required", VBool true); ("$defs", VDict [("A", VDict [("complexTypes", VStr "nothing")])])].
Definition ex_offends : pyval :=
  VDict [("definitions", VDict [("A", VDict [("type", VStr "object")]); ("B", VDict [("definitions", VDict [("C", VDict [("complexTypes", VStr "nothing")])])])])].
Definition ex_dependent : pyval := VDict [("dependencies", VDict [("a", VDict [("complexTypes", VInt 1)]); ("b", VList [VStr "a"])]); ("complexTypes", VStr "uri")].
Definition ex_check (v : pyval) : verdict * scopes := check json_kinds meta_docs (fun _ => true) meta_schema 40 v [meta_uri].
Example ex_bad_accepted : ex_check ex_bad = (Accepted, [meta_uri]).
Proof. vm_compute. reflexivity. Qed.
Example ex_bad_meets : forall l, ex_bad = VDict l -> ~ In "complexTypes" (map fst l) /\ ~ In "definitions" (map fst l).
Proof. intros l e. injection e as <-. cbn. split; intros [h | [h | [h | [h | []]]]]; discriminate. Qed.
Example ex_offends_refused : ex_check ex_offends = (Refused [At "definitions"; At "B"; At "definitions"; At "C"; At "complexTypes"], [meta_uri]).
Proof. vm_compute. reflexivity. Qed.
Example ex_offends_meets : Offends ex_offends [At "definitions"; At "B"; At "definitions"; At "C"; At "complexTypes"].
Proof.
  eapply off_definition; [reflexivity | right; left; reflexivity|]. eapply off_definition; [reflexivity | left; reflexivity|].
  eapply off_here; [reflexivity|]. intros (t & e & i). injection e as <-. cbn in i. repeat destruct i as [i | i]; try discriminate. exact i.
Qed.
Example ex_dependent_accepted : ex_check ex_dependent = (Accepted, [meta_uri]).
Proof. vm_compute. reflexivity. Qed.
Example ex_several : checks json_kinds meta_docs (fun _ => true) meta_schema 40 [ex_offends; ex_bad; VInt 3] [meta_uri] =
  ([Refused [At "definitions"; At "B"; At "definitions"; At "C"; At "complexTypes"]; Accepted; Accepted], [meta_uri]).
Proof. vm_compute. reflexivity. Qed.

Print Assumptions checks_independent.
Print Assumptions check_exact.
Print Assumptions anything_accepted_refuted.
Print Assumptions no_type_checker_refuted.
