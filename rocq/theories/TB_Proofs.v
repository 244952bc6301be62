From Verif Require Import Base TB_Model TB_Spec.
Local Open Scope list_scope.

Section P.
  Variable resolve : uri -> res sch.
  Variable fails : uri -> list cls -> option exn.
  Variable underscore : uri -> uri.
  Notation B := (build resolve fails underscore).
  Notation builder := (uri -> option sch -> tb -> res cls * tb).

  Lemma ddel_dset_new (u : uri) (s : sch) d : dget u d = None -> ddel u (dset u s d) = d.
  Proof.
    induction d as [|[k v] d IH]; cbn; [destruct (eq_dec u u); [reflexivity|congruence]|].
    destruct (eq_dec u k) as [e|n]; [discriminate|]. intros h. cbn. destruct (eq_dec u k); [congruence|].
    f_equal. apply IH. exact h.
  Qed.
  Lemma dmem_get {V} (u : uri) (d : dict uri V) : dmem u d = false <-> dget u d = None.
  Proof. unfold dmem. destruct (dget u d); split; congruence. Qed.

  (** ** success restores the marks *)
  Definition same_onc (b : builder) := forall id os st c st', b id os st = (Ok c, st') -> onc st' = onc st.
  Lemma proxy_onc u st c st' : proxy u st = (Ok c, st') -> onc st' = onc st.
  Proof. unfold proxy. destruct (dget u (onc st)) as [s|]; [destruct (is_typed s)|]; intros h; inversion h; reflexivity. Qed.
  Lemma load_onc b : same_onc b -> forall u st c st', load_with b u st = (Ok c, st') -> onc st' = onc st.
  Proof.
    intros hb u st c st'. unfold load_with. destruct (dget u (reg st)); [intros h; inversion h; reflexivity|].
    destruct (dmem u (onc st)); [apply proxy_onc|]. destruct (b u None st) as [[c1|e] st1] eqn:e1; intros h; inversion h; subst.
    cbn. eapply hb. exact e1.
  Qed.
  Lemma one_onc b : same_onc b -> forall id x st c st', one_step b id x st = (Ok c, st') -> onc st' = onc st.
  Proof. intros hb id [u|u|u s] st c st' h; cbn in h; [eapply load_onc; eassumption|eapply load_onc; eassumption|eapply hb; eassumption]. Qed.
  Lemma steps_onc b : same_onc b -> forall id l st cs st', steps_with b id l st = (Ok cs, st') -> onc st' = onc st.
  Proof.
    intros hb id l. induction l as [|x l IH]; intros st cs st' h; cbn [steps_with] in h; [inversion h; reflexivity|].
    destruct (one_step b id x st) as [[c|e] st1] eqn:e1; [|discriminate].
    destruct (steps_with b id l st1) as [[cs'|e] st2] eqn:e2; [|discriminate]. inversion h; subst.
    rewrite (IH _ _ _ e2). eapply one_onc; eassumption.
  Qed.
  Lemma make_onc id ps st r st' : make fails id ps st = (r, st') -> onc st' = onc st /\ reg st' = reg st.
  Proof. unfold make. destruct (fails id ps); intros h; inversion h; split; reflexivity. Qed.
  Lemma construct_onc b : same_onc b -> forall id s st c st', construct fails underscore b id s st = (Ok c, st') -> onc st' = onc st.
  Proof.
    intros hb id [bo|t r rest|t l] st c st' h; cbn [construct] in h; [discriminate| |].
    - destruct (load_with b (scope r id) st) as [[c1|e] st1] eqn:e1; [|discriminate]. pose proof (load_onc b hb _ _ _ _ e1) as o1.
      destruct rest as [ext|]; [|inversion h; subst; exact o1].
      destruct (steps_with b id (map LoadRef ext) st1) as [[cs|e] st2] eqn:e2; [|discriminate].
      pose proof (steps_onc b hb _ _ _ _ _ e2) as o2.
      destruct (make fails id (c1 :: cs) st2) as [[c3|e] st3] eqn:e3; [|discriminate]. inversion h; subst. cbn.
      apply make_onc in e3. destruct e3 as [o3 _]. congruence.
    - destruct (steps_with b id l st) as [[cs|e] st1] eqn:e1; [|discriminate].
      pose proof (steps_onc b hb _ _ _ _ _ e1) as o2. apply make_onc in h. destruct h. congruence.
  Qed.
  Lemma build_onc n : same_onc (B n).
  Proof.
    induction n as [|n IH]; intros id os st c st' h; cbn [build] in h; [discriminate|].
    destruct (dget id (reg st)) as [c0|]; [inversion h; reflexivity|].
    destruct (dmem id (onc st)) eqn:dm; [eapply proxy_onc; eassumption|].
    apply dmem_get in dm.
    destruct (match os with Some s => Ok s | None => resolve id end) as [s|e]; [|discriminate].
    destruct s as [b|t r rest|t l]; [inversion h; reflexivity| |].
    all: match type of h with context[construct ?f ?u ?b ?i ?s ?x] => destruct (construct f u b i s x) as [[c1|e] st1] eqn:e1 end;
      [|discriminate]; inversion h; subst; cbn;
      rewrite (construct_onc _ IH _ _ _ _ _ e1); cbn; apply ddel_dset_new; exact dm.
  Qed.

  (** ** what happens to one key: a registered class stays, a key marked and not registered stays so *)
  Definition kept (k : uri) (st st' : tb) : Prop :=
    (forall c, dget k (reg st) = Some c -> dget k (reg st') = Some c) /\
    (dget k (reg st) = None -> forall s, dget k (onc st) = Some s -> dget k (reg st') = None /\ dget k (onc st') = Some s).
  Lemma kept_refl k st : kept k st st. Proof. split; auto. Qed.
  Lemma kept_trans k a b c : kept k a b -> kept k b c -> kept k a c.
  Proof. intros [h1 h2] [h3 h4]. split; [auto|]. intros hn s hs. destruct (h2 hn s hs). eauto. Qed.
  Lemma kept_same k a b : reg b = reg a -> onc b = onc a -> kept k a b.
  Proof. intros e1 e2. unfold kept. rewrite e1, e2. auto. Qed.
  Definition keeps1 (k : uri) (b : builder) := forall id os st, kept k st (snd (b id os st)).

  Section Key.
    Variable k : uri.
    Lemma proxy_kept u st : kept k st (snd (proxy u st)).
    Proof. unfold proxy. destruct (dget u (onc st)) as [s|]; [destruct (is_typed s)|]; apply kept_same; reflexivity. Qed.
    Lemma load_kept b : keeps1 k b -> forall u st, kept k st (snd (load_with b u st)).
    Proof.
      intros hb u st. unfold load_with. destruct (dget u (reg st)) as [c0|] eqn:g; [apply kept_refl|].
      destruct (dmem u (onc st)) eqn:dm; [apply proxy_kept|]. apply dmem_get in dm.
      specialize (hb u None st). destruct (b u None st) as [[c1|e] st1]; cbn [snd] in *; [|exact hb].
      destruct (eq_dec u k) as [->|nk].
      - split; intros h; [congruence|]. intros s. congruence.
      - apply (kept_trans _ _ _ _ hb). split; cbn; [intros c|intros h1 s h2]; rewrite dget_dset_other by congruence; auto.
    Qed.
    Lemma one_kept b : keeps1 k b -> forall id x st, kept k st (snd (one_step b id x st)).
    Proof. intros hb id [u|u|u s] st; cbn; [apply load_kept; exact hb|apply load_kept; exact hb|apply hb]. Qed.
    Lemma steps_kept b : keeps1 k b -> forall id l st, kept k st (snd (steps_with b id l st)).
    Proof.
      intros hb id l. induction l as [|x l IH]; intros st; cbn [steps_with]; [apply kept_refl|].
      pose proof (one_kept b hb id x st) as h1. destruct (one_step b id x st) as [[c|e] st1]; cbn [snd] in *; [|exact h1].
      specialize (IH st1). destruct (steps_with b id l st1) as [[cs|e] st2]; cbn [snd] in *; eapply kept_trans; eassumption.
    Qed.
    Lemma make_kept id ps st : kept k st (snd (make fails id ps st)).
    Proof. unfold make. destruct (fails id ps); apply kept_same; reflexivity. Qed.
    Lemma construct_kept b : keeps1 k b -> forall id s st, (underscore id <> k \/ exists e, fst (construct fails underscore b id s st) = Err e) ->
      kept k st (snd (construct fails underscore b id s st)).
    Proof.
      intros hb id [bo|t r rest|t l] st; cbn [construct]; [intros _; apply kept_refl| |].
      - pose proof (load_kept b hb (scope r id) st) as h1. destruct (load_with b (scope r id) st) as [[c1|e] st1]; cbn [snd fst] in *; [|intros _; exact h1].
        destruct rest as [ext|]; [|intros _; exact h1].
        pose proof (steps_kept b hb id (map LoadRef ext) st1) as h2.
        destruct (steps_with b id (map LoadRef ext) st1) as [[cs|e] st2]; cbn [snd fst] in *; [|intros _; eapply kept_trans; eassumption].
        pose proof (make_kept id (c1 :: cs) st2) as h3.
        destruct (make fails id (c1 :: cs) st2) as [[c3|e] st3]; cbn [snd fst] in *;
          [|intros _; repeat (eapply kept_trans; [eassumption|]); apply kept_refl].
        intros [nu|[e he]]; [|discriminate]. apply (kept_trans _ _ _ _ h1), (kept_trans _ _ _ _ h2), (kept_trans _ _ _ _ h3).
        split; cbn; [intros c|intros q1 s q2]; rewrite dget_dset_other by congruence; auto.
      - intros _. pose proof (steps_kept b hb id l st) as h1. destruct (steps_with b id l st) as [[cs|e] st1]; cbn [snd] in *; [|exact h1].
        eapply kept_trans; [exact h1|]. apply make_kept.
    Qed.
    Hypothesis under : forall x, underscore x = k -> x = k.
    Lemma build_kept n : keeps1 k (B n).
    Proof.
      induction n as [|n IH]; intros id os st; cbn [build]; [apply kept_refl|].
      destruct (dget id (reg st)) as [c0|] eqn:g; [apply kept_refl|].
      destruct (dmem id (onc st)) eqn:dm; [apply proxy_kept|]. apply dmem_get in dm.
      destruct (match os with Some s => Ok s | None => resolve id end) as [s|e]; [|apply kept_refl].
      destruct (eq_dec id k) as [->|nk].
      { split; [intros c h; congruence|]. intros h s0. congruence. }
      assert (hm : forall s, kept k st (mark id s st)).
      { intros s1. split; cbn; [auto|]. intros h1 s2 h2. rewrite dget_dset_other by congruence. auto. }
      destruct s as [b|t r rest|t l]; [apply kept_same; reflexivity| |];
      match goal with |- context[construct ?f ?u ?b ?i ?s ?x] =>
        pose proof (construct_kept b IH i s x (or_introl (fun h => nk (under _ h)))) as h1;
        pose proof (hm s) as h2; destruct (construct f u b i s x) as [[c1|e] st1] end; cbn [snd] in *;
      try (eapply kept_trans; eassumption).
      all: eapply kept_trans; [exact h2|]; eapply kept_trans; [exact h1|].
      all: split; cbn; [intros c|intros q1 s q2]; rewrite dget_dset_other by congruence; [auto|]; rewrite dget_ddel; destruct (eq_dec k id); [congruence|auto].
    Qed.
    Lemma define_kept n id s st : id <> k -> kept k st (snd (tb_step resolve fails underscore n (ODefine id s) st)).
    Proof.
      intros nk. cbn [tb_step].
      assert (h : kept k st {| reg := ddel id (reg st); onc := onc st; made := made st |}).
      { split; cbn; [intros c|intros q1 s0 q2]; rewrite dget_ddel; destruct (eq_dec k id); try congruence; auto. }
      destruct s; [apply kept_refl| |]; (eapply kept_trans; [exact h|apply build_kept]).
    Qed.
  End Key.

  (** ** proxies inside a class *)
  Definition known (X : uri -> Prop) (st : tb) (u : uri) : Prop := dget u (reg st) <> None \/ dget u (onc st) <> None \/ X u.
  Definition Inv (X : uri -> Prop) (st : tb) : Prop := forall k c u, dget k (reg st) = Some c -> Mentions c u -> known X st u.
  Definition good (X : uri -> Prop) (st : tb) (r : res cls) (st' : tb) : Prop :=
    (forall u, known X st u -> known X st' u) /\ Inv X st' /\ (forall c u, r = Ok c -> Mentions c u -> known X st' u).

  Section Inv.
    Variable X : uri -> Prop.
    Definition goodb (b : builder) := forall id os st, Inv X st -> good X st (fst (b id os st)) (snd (b id os st)).
    Lemma known_dset u c st v : known X st v -> known X (set_reg u c st) v.
    Proof. intros [h|[h|h]]; [left|right; left; exact h|right; right; exact h]. cbn. rewrite dget_dset. destruct (eq_dec v u); congruence. Qed.
    Lemma Inv_dset u c st : Inv X st -> (forall v, Mentions c v -> known X st v) -> Inv X (set_reg u c st).
    Proof.
      intros hi hc k c' v g m. apply known_dset. cbn in g. rewrite dget_dset in g.
      destruct (eq_dec k u); [inversion g; subst; auto|eapply hi; eassumption].
    Qed.
    Lemma proxy_good u st : Inv X st -> good X st (fst (proxy u st)) (snd (proxy u st)).
    Proof.
      intros hi. unfold proxy. destruct (dget u (onc st)) as [s|] eqn:g; [destruct (is_typed s)|]; cbn [fst snd];
        (split; [intros v hv; exact hv|split; [exact hi|]]); intros c v h m; inversion h; subst.
      inversion m; subst. right. left. cbn. congruence.
    Qed.
    Lemma load_good b : goodb b -> forall u st, Inv X st -> good X st (fst (load_with b u st)) (snd (load_with b u st)).
    Proof.
      intros hb u st hi. unfold load_with. destruct (dget u (reg st)) as [c0|] eqn:g.
      { cbn. split; [auto|]. split; [exact hi|]. intros c v h m. inversion h; subst. eapply hi; eassumption. }
      destruct (dmem u (onc st)) eqn:dm; [apply proxy_good; exact hi|].
      specialize (hb u None st hi). destruct (b u None st) as [[c1|e] st1]; cbn [fst snd] in *; [|exact hb].
      destruct hb as (g1 & g2 & g3). split; [intros v hv; apply known_dset; auto|].
      split; [apply Inv_dset; [exact g2|intros v m; eapply g3; [reflexivity|exact m]]|].
      intros c v h m. inversion h; subst. apply known_dset. eapply g3; [reflexivity|exact m].
    Qed.
    Lemma one_good b : goodb b -> forall id x st, Inv X st -> good X st (fst (one_step b id x st)) (snd (one_step b id x st)).
    Proof. intros hb id [u|u|u s] st hi; cbn; [apply load_good|apply load_good|apply hb]; assumption. Qed.
    Definition goods (st : tb) (r : res (list cls)) (st' : tb) : Prop :=
      (forall u, known X st u -> known X st' u) /\ Inv X st' /\ (forall cs c u, r = Ok cs -> In c cs -> Mentions c u -> known X st' u).
    Lemma steps_good b : goodb b -> forall id l st, Inv X st -> goods st (fst (steps_with b id l st)) (snd (steps_with b id l st)).
    Proof.
      intros hb id l. induction l as [|x l IH]; intros st hi; cbn [steps_with].
      { split; [auto|split; [exact hi|]]. intros cs c u h i. inversion h; subst. destruct i. }
      pose proof (one_good b hb id x st hi) as h1. destruct (one_step b id x st) as [[c|e] st1]; cbn [fst snd] in *.
      2:{ destruct h1 as (g1 & g2 & g3). split; [exact g1|split; [exact g2|]]. intros; discriminate. }
      destruct h1 as (g1 & g2 & g3). specialize (IH st1 g2). destruct (steps_with b id l st1) as [[cs|e] st2]; cbn [fst snd] in *;
        destruct IH as (f1 & f2 & f3); (split; [auto|split; [exact f2|]]); [|intros; discriminate].
      intros cs' c' u h i m. inversion h; subst. destruct i as [->|i]; [apply f1; eapply g3; [reflexivity|exact m]|eapply f3; [reflexivity|exact i|exact m]].
    Qed.
    Lemma make_good id ps st : Inv X st -> (forall p u, In p ps -> Mentions p u -> known X st u) ->
      good X st (fst (make fails id ps st)) (snd (make fails id ps st)).
    Proof.
      intros hi hp. unfold make. destruct (fails id ps); cbn [fst snd]; (split; [auto|split; [exact hi|]]); intros c u h m; [discriminate|].
      inversion h; subst. inversion m; subst. eapply hp; eassumption.
    Qed.
    Lemma good_trans a r1 b r2 c : good X a r1 b -> (Inv X b -> good X b r2 c) -> good X a r2 c.
    Proof. intros (h1 & h2 & h3) h. destruct (h h2) as (g1 & g2 & g3). split; auto. Qed.
    Lemma construct_good b : goodb b -> forall id s st, Inv X st -> good X st (fst (construct fails underscore b id s st)) (snd (construct fails underscore b id s st)).
    Proof.
      intros hb id [bo|t r rest|t l] st hi; cbn [construct].
      - split; [auto|split; [exact hi|]]. intros; discriminate.
      - pose proof (load_good b hb (scope r id) st hi) as h1. destruct (load_with b (scope r id) st) as [[c1|e] st1]; cbn [fst snd] in *; [|exact h1].
        destruct rest as [ext|]; [|exact h1]. destruct h1 as (g1 & g2 & g3).
        pose proof (steps_good b hb id (map LoadRef ext) st1 g2) as h2. destruct (steps_with b id (map LoadRef ext) st1) as [[cs|e] st2]; cbn [fst snd] in *;
          destruct h2 as (f1 & f2 & f3).
        2:{ split; [auto|split; [exact f2|]]. intros; discriminate. }
        assert (h3 := make_good id (c1 :: cs) st2 f2). destruct (make fails id (c1 :: cs) st2) as [[c3|e] st3]; cbn [fst snd] in *.
        2:{ destruct h3 as (k1 & k2 & k3); [|split; [auto|split; [exact k2|intros; discriminate]]].
            intros p u [e1|i] m; [subst; apply f1; eapply g3; [reflexivity|exact m]|eapply f3; [reflexivity|exact i|exact m]]. }
        destruct h3 as (k1 & k2 & k3).
        { intros p u [e1|i] m; [subst; apply f1; eapply g3; [reflexivity|exact m]|eapply f3; [reflexivity|exact i|exact m]]. }
        split; [intros; apply known_dset; auto|]. split; [apply Inv_dset; [exact k2|intros v m; eapply k3; [reflexivity|exact m]]|].
        intros c v h m. inversion h; subst. apply known_dset. eapply k3; [reflexivity|exact m].
      - pose proof (steps_good b hb id l st hi) as h2. destruct (steps_with b id l st) as [[cs|e] st2]; cbn [fst snd] in *;
          destruct h2 as (f1 & f2 & f3).
        2:{ split; [auto|split; [exact f2|]]. intros; discriminate. }
        pose proof (make_good id cs st2 f2 (fun p u i m => f3 _ _ _ eq_refl i m)) as (k1 & k2 & k3). split; [auto|split; [exact k2|exact k3]].
    Qed.
    Lemma build_good n : goodb (B n).
    Proof.
      induction n as [|n IH]; intros id os st hi; cbn [build].
      { split; [auto|split; [exact hi|]]. intros; discriminate. }
      destruct (dget id (reg st)) as [c0|] eqn:g.
      { cbn. split; [auto|]. split; [exact hi|]. intros c v h m. inversion h; subst. eapply hi; eassumption. }
      destruct (dmem id (onc st)) eqn:dm; [apply proxy_good; exact hi|].
      destruct (match os with Some s => Ok s | None => resolve id end) as [s|e].
      2:{ split; [auto|split; [exact hi|]]. intros; discriminate. }
      assert (hm : forall s v, known X st v -> known X (mark id s st) v).
      { intros s1 v [h|[h|h]]; [left; exact h| |right; right; exact h]. right. left. cbn. rewrite dget_dset. destruct (eq_dec v id); congruence. }
      assert (im : forall s, Inv X (mark id s st)). { intros s1 k c v g1 m. apply hm. eapply hi; eassumption. }
      destruct s as [b|t r rest|t l].
      { split; [auto|split; [exact hi|]]. intros c v h m. inversion h; subst. inversion m. }
      all: match goal with |- context[construct ?f ?u ?b ?i ?s ?x] =>
        pose proof (construct_good b IH i s x (im s)) as h1;
        pose proof (hm s) as h2; destruct (construct f u b i s x) as [[c1|e] st1] end; cbn [fst snd] in *;
        destruct h1 as (g1 & g2 & g3).
      all: try (split; [auto|split; [exact g2|intros; discriminate]]).
      all: assert (hu : forall v, known X st1 v -> known X (set_reg id c1 (unmark id st1)) v)
        by (intros v [h|[h|h]]; [left|destruct (eq_dec v id) as [->|nv]; [left|right; left]|right; right; exact h]; cbn;
            [rewrite dget_dset; destruct (eq_dec v id); congruence|rewrite dget_dset_same; congruence|rewrite dget_ddel; destruct (eq_dec v id); congruence]).
      all: split; [auto|]; split; [|intros c v h m; inversion h; subst; apply hu; eapply g3; [reflexivity|exact m]].
      all: intros k c v q m; apply hu; cbn in q; rewrite dget_dset in q; destruct (eq_dec k id);
        [inversion q; subst; eapply g3; [reflexivity|exact m]|eapply g2; eassumption].
    Qed.
  End Inv.

  (** ** more fuel changes nothing *)
  Definition more {A} (r r' : res A * tb) : Prop := fst r <> Err OutOfFuel -> r' = r.
  Definition moreb (b b' : builder) : Prop := forall id os st, more (b id os st) (b' id os st).
  Lemma load_more b b' : moreb b b' -> forall u st, more (load_with b u st) (load_with b' u st).
  Proof.
    intros h u st. unfold more, load_with. destruct (dget u (reg st)); [reflexivity|]. destruct (dmem u (onc st)); [reflexivity|].
    specialize (h u None st). unfold more in h. destruct (b u None st) as [[c|e] st1]; cbn [fst] in *; intros ne; rewrite h; try reflexivity; try discriminate.
    exact ne.
  Qed.
  Lemma one_more b b' : moreb b b' -> forall id x st, more (one_step b id x st) (one_step b' id x st).
  Proof. intros h id [u|u|u s] st; cbn; [apply load_more; exact h|apply load_more; exact h|apply h]. Qed.
  Lemma steps_more b b' : moreb b b' -> forall id l st, more (steps_with b id l st) (steps_with b' id l st).
  Proof.
    intros h id l. induction l as [|x l IH]; intros st; cbn [steps_with]; [intros _; reflexivity|].
    pose proof (one_more b b' h id x st) as h1. unfold more in *. destruct (one_step b id x st) as [[c|e] st1]; cbn [fst] in *.
    - rewrite h1 by discriminate. specialize (IH st1). destruct (steps_with b id l st1) as [[cs|e] st2]; cbn [fst] in *; intros ne.
      + rewrite IH by discriminate. reflexivity.
      + rewrite IH; [reflexivity|congruence].
    - intros ne. rewrite h1; [reflexivity|congruence].
  Qed.
  Lemma construct_more b b' : moreb b b' -> forall id s st, more (construct fails underscore b id s st) (construct fails underscore b' id s st).
  Proof.
    intros h id [bo|t r rest|t l] st; cbn [construct]; [intros _; reflexivity| |].
    - pose proof (load_more b b' h (scope r id) st) as h1. unfold more in *. destruct (load_with b (scope r id) st) as [[c1|e] st1]; cbn [fst] in *;
        [rewrite h1 by discriminate|intros ne; rewrite h1; [reflexivity|exact ne]].
      destruct rest as [ext|]; [|reflexivity]. pose proof (steps_more b b' h id (map LoadRef ext) st1) as h2. unfold more in h2.
      destruct (steps_with b id (map LoadRef ext) st1) as [[cs|e] st2]; cbn [fst] in *;
        [rewrite h2 by discriminate|intros ne; rewrite h2; [reflexivity|congruence]]. reflexivity.
    - pose proof (steps_more b b' h id l st) as h2. unfold more in *.
      destruct (steps_with b id l st) as [[cs|e] st2]; cbn [fst] in *;
        [rewrite h2 by discriminate|intros ne; rewrite h2; [reflexivity|congruence]]. reflexivity.
  Qed.
  Lemma build_more n : moreb (B n) (B (S n)).
  Proof.
    induction n as [|n IH]; intros id os st; [intros ne; destruct (ne eq_refl)|].
    unfold more. change (B (S (S n)) id os st) with (B (S (S n)) id os st).
    cbn [build]. destruct (dget id (reg st)); [reflexivity|]. destruct (dmem id (onc st)); [reflexivity|].
    destruct (match os with Some s => Ok s | None => resolve id end) as [s|e]; [|reflexivity].
    destruct s as [b|t r rest|t l]; [reflexivity| |].
    all: match goal with |- context[construct _ _ _ _ ?s _] => pose proof (construct_more _ _ IH id s (mark id s st)) as hc end; unfold more in hc.
    all: match type of hc with fst (construct ?f ?u ?b ?i ?s ?x) <> _ -> _ => cbn [build] in hc; destruct (construct f u b i s x) as [[c1|e] st1] end; cbn [fst] in *; intros ne.
    all: rewrite hc by congruence; reflexivity.
  Qed.
  Lemma build_more_le n m : n <= m -> moreb (B n) (B m).
  Proof.
    induction 1 as [|m le IH]; intros id os st ne; [reflexivity|]. rewrite <- (IH id os st ne). apply build_more. rewrite (IH id os st ne). exact ne.
  Qed.

  (** ** enough fuel *)
  Lemma depth_node t l x : In x l -> S (depth_step x) <= depth (SNode t l).
  Proof. cbn. induction l as [|y l IH]; [intros []|]. intros [->|i]; [lia|]. specialize (IH i). lia. Qed.
  Lemma mentions_node id t l x : In x l -> incl (mentions_step id x) (mentions id (SNode t l)).
  Proof. cbn. induction l as [|y l IH]; [intros []|]. intros [->|i]; [apply incl_appl, incl_refl|apply incl_appr, IH; exact i]. Qed.

  Variable dom : list uri.
  Variable M : nat.

  Hypothesis closed : forall u s, In u dom -> resolve u = Ok s -> incl (mentions u s) dom /\ depth s <= M.
  Hypothesis res_fuel : forall u, resolve u <> Err OutOfFuel.
  Hypothesis fail_fuel : forall u ps, fails u ps <> Some OutOfFuel.
  Definition left_in (o : dict uri sch) : nat := length (filter (fun u => negb (dmem u o)) dom).
  Lemma filter_len_le {A} (f g : A -> bool) (l : list A) : (forall x, g x = true -> f x = true) -> length (filter g l) <= length (filter f l).
  Proof.
    intros h. induction l as [|x l IH]; cbn; [lia|]. destruct (g x) eqn:e; [rewrite (h _ e); cbn; lia|]. destruct (f x); cbn; lia.
  Qed.
  Lemma filter_len_lt {A} (f g : A -> bool) (l : list A) y : (forall x, g x = true -> f x = true) -> In y l -> f y = true -> g y = false ->
    length (filter g l) < length (filter f l).
  Proof.
    intros h. induction l as [|x l IH]; [intros []|]. intros [->|i] e1 e2; cbn.
    - rewrite e1, e2. cbn. pose proof (filter_len_le f g l h). lia.
    - specialize (IH i e1 e2). destruct (g x) eqn:e; [rewrite (h _ e); cbn; lia|]. destruct (f x); cbn; lia.
  Qed.
  Lemma dmem_mark (u : uri) (s : sch) (o : dict uri sch) (v : uri) : dmem v (dset u s o) = beq v u || dmem v o.
  Proof. unfold dmem. rewrite dget_dset. unfold beq. destruct (eq_dec v u); reflexivity. Qed.
  Lemma left_mark (u : uri) (s : sch) (o : dict uri sch) : left_in (dset u s o) <= left_in o.
  Proof. apply filter_len_le. intros v. rewrite dmem_mark. destruct (beq v u), (dmem v o); cbn; congruence. Qed.
  Lemma left_mark_lt (u : uri) (s : sch) (o : dict uri sch) : In u dom -> dmem u o = false -> left_in (dset u s o) < left_in o.
  Proof.
    intros i n. apply (filter_len_lt _ _ _ u); [|exact i|rewrite n; reflexivity|rewrite dmem_mark, beq_refl; reflexivity].
    intros v. rewrite dmem_mark. destruct (beq v u), (dmem v o); cbn; congruence.
  Qed.

  Definition fueled (n : nat) (b : builder) : Prop := forall id os st,
    (match os with
     | Some s => incl (mentions id s) dom /\ 1 + depth s + S M * left_in (onc st) <= n
     | None => In id dom /\ 1 + S M * left_in (onc st) <= n
     end) -> fst (b id os st) <> Err OutOfFuel.
  Lemma proxy_fuel u st : fst (proxy u st) <> Err OutOfFuel.
  Proof. unfold proxy. destruct (dget u (onc st)) as [s|]; [destruct (is_typed s)|]; discriminate. Qed.
  Lemma load_fuel n b : fueled n b -> forall u st, In u dom -> 1 + S M * left_in (onc st) <= n -> fst (load_with b u st) <> Err OutOfFuel.
  Proof.
    intros hb u st i le. unfold load_with. destruct (dget u (reg st)); [discriminate|]. destruct (dmem u (onc st)); [apply proxy_fuel|].
    specialize (hb u None st (conj i le)). destruct (b u None st) as [[c|e] st1]; [discriminate|exact hb].
  Qed.
  Lemma one_fuel n b : fueled n b -> forall id x st, incl (mentions_step id x) dom -> 1 + depth_step x + S M * left_in (onc st) <= n ->
    fst (one_step b id x st) <> Err OutOfFuel.
  Proof.
    intros hb id [u|u|u s] st hi le; cbn [one_step depth_step mentions_step] in *.
    - apply (load_fuel n); [exact hb|apply hi; left; reflexivity|lia].
    - apply (load_fuel n); [exact hb|apply hi; left; reflexivity|lia].
    - apply hb. split; [exact hi|lia].
  Qed.
  Lemma steps_fuel n b : fueled n b -> same_onc b -> forall id l st,
    (forall x, In x l -> incl (mentions_step id x) dom /\ 1 + depth_step x + S M * left_in (onc st) <= n) ->
    fst (steps_with b id l st) <> Err OutOfFuel.
  Proof.
    intros hb so id l. induction l as [|x l IH]; intros st h; cbn [steps_with]; [discriminate|].
    destruct (h x (or_introl eq_refl)) as [h1 h2]. pose proof (one_fuel n b hb id x st h1 h2) as ho.
    destruct (one_step b id x st) as [[c|e] st1] eqn:e1; [|intros q; cbn in q; inversion q; subst; apply ho; reflexivity].
    assert (hs : fst (steps_with b id l st1) <> Err OutOfFuel).
    { apply IH. intros y i. rewrite (one_onc b so _ _ _ _ _ e1). apply h. right. exact i. }
    destruct (steps_with b id l st1) as [[cs|e] st2]; [discriminate|]. intros q; cbn in q; inversion q; subst. apply hs. reflexivity.
  Qed.
  Lemma make_fuel id ps st : fst (make fails id ps st) <> Err OutOfFuel.
  Proof. unfold make. destruct (fails id ps) eqn:e; [|discriminate]. intros h. inversion h; subst. exact (fail_fuel _ _ e). Qed.
  Lemma construct_fuel n b : fueled n b -> same_onc b -> forall id s st, incl (mentions id s) dom ->
    depth s + S M * left_in (onc st) <= n -> fst (construct fails underscore b id s st) <> Err OutOfFuel.
  Proof.
    intros hb so id [bo|t r rest|t l] st hi le; cbn [construct]; [discriminate| |].
    - assert (h1 : fst (load_with b (scope r id) st) <> Err OutOfFuel).
      { apply (load_fuel n); [exact hb|apply hi; left; reflexivity|exact le]. }
      destruct (load_with b (scope r id) st) as [[c1|e] st1] eqn:e1; [|exact h1].
      destruct rest as [ext|]; [|discriminate].
      assert (h2 : fst (steps_with b id (map LoadRef ext) st1) <> Err OutOfFuel).
      { apply (steps_fuel n); [exact hb|exact so|]. rewrite (load_onc b so _ _ _ _ e1). intros x i. apply in_map_iff in i. destruct i as (u & <- & i).
        cbn. split; [|cbn in le; lia]. intros v [<-|[]]. apply hi. cbn. right. apply in_map_iff. exists u. split; [reflexivity|exact i]. }
      destruct (steps_with b id (map LoadRef ext) st1) as [[cs|e] st2]; [|intros q; cbn in q; inversion q; subst; apply h2; reflexivity].
      pose proof (make_fuel id (c1 :: cs) st2) as h3. destruct (make fails id (c1 :: cs) st2) as [[c3|e] st3]; [discriminate|].
      intros q; cbn in q; inversion q; subst; apply h3; reflexivity.
    - assert (h2 : fst (steps_with b id l st) <> Err OutOfFuel).
      { apply (steps_fuel n); [exact hb|exact so|]. intros x i. split; [|pose proof (depth_node t l x i); lia].
        intros v hv. apply hi. eapply mentions_node; eassumption. }
      destruct (steps_with b id l st) as [[cs|e] st2]; [|intros q; cbn in q; inversion q; subst; apply h2; reflexivity].
      apply make_fuel.
  Qed.
  Lemma build_fuel n : fueled n (B n).
  Proof.
    induction n as [|n IH]; intros id os st h.
    { destruct os; lia. }
    cbn [build]. destruct (dget id (reg st)); [discriminate|]. destruct (dmem id (onc st)) eqn:dm; [apply proxy_fuel|].
    destruct (match os with Some s => Ok s | None => resolve id end) as [s|e] eqn:er.
    2:{ destruct os; [discriminate|]. intros q. inversion q; subst. exact (res_fuel _ er). }
    assert (hc : forall s', s' = s -> fst (construct fails underscore (B n) id s (mark id s st)) <> Err OutOfFuel).
    { intros s' _. apply (construct_fuel n); [exact IH|apply build_onc| |].
      - destruct os as [s1|]; [inversion er; subst; apply h|]. apply (closed id s); [apply h|exact er].
      - cbn [mark onc]. destruct os as [s1|].
        + inversion er; subst. pose proof (left_mark id s (onc st)). destruct h as [_ h]. nia.
        + destruct h as [i h]. pose proof (left_mark_lt id s (onc st) i dm). destruct (closed id s i er) as [_ hd]. nia. }
    destruct s as [b|t r rest|t l]; [discriminate| |];
      match goal with |- context[construct ?f ?u ?b ?i ?s ?x] => specialize (hc s eq_refl); destruct (construct f u b i s x) as [[c1|e] st1] end;
      try discriminate; intros q; cbn in q; inversion q; subst; apply hc; reflexivity.
  Qed.
End P.
