(** C44: the ancestors of a schema and its expansion. *)
From Coq Require Import Sorted.
From Verif Require Import Base TB_Model TB_Spec.
Local Open Scope list_scope.

Lemma Precedes_dedup {A} (E : EqDec A) (u v : A) l : forall seen,
  Precedes u v (dedup_from seen l) <->
  (~ In u seen /\ ~ In v seen /\ u <> v /\ exists l1 l2, l = l1 ++ u :: l2 /\ ~ In v l1 /\ In v l2).
Proof.
  induction l as [|x l IH]; intros seen; cbn [dedup_from].
  { split; [intros (a & b & c & h); destruct a; discriminate|]. intros (_ & _ & _ & l1 & l2 & h & _). destruct l1; discriminate. }
  destruct (mem_spec E x seen) as [i|ni].
  - rewrite IH. split.
    + intros (h1 & h2 & h3 & l1 & l2 & -> & h4 & h5). repeat (split; [assumption|]). exists (x :: l1), l2.
      split; [reflexivity|]. split; [|exact h5]. intros [->|k]; tauto.
    + intros (h1 & h2 & h3 & l1 & l2 & e & h4 & h5). repeat (split; [assumption|]).
      destruct l1 as [|y l1]; inversion e; subst; [tauto|]. exists l1, l2. split; [reflexivity|]. split; [|exact h5]. intros k. apply h4. right. exact k.
  - split.
    + intros (l1 & l2 & l3 & e). destruct l1 as [|y l1]; inversion e as [[e1 e2]].
      * subst x. assert (iv : In v (dedup_from (u :: seen) l)) by (rewrite e2; apply in_app_iff; right; left; reflexivity).
        apply dedup_from_In in iv. destruct iv as [iv nv]. split; [exact ni|]. split; [intros k; apply nv; right; exact k|].
        split; [intros ->; apply nv; left; reflexivity|]. exists [], l. split; [reflexivity|]. split; [intros []|exact iv].
      * subst y. assert (P : Precedes u v (dedup_from (x :: seen) l)) by (exists l1, l2, l3; exact e2). apply IH in P.
        destruct P as (h1 & h2 & h3 & m1 & m2 & -> & h4 & h5). split; [intros k; apply h1; right; exact k|].
        split; [intros k; apply h2; right; exact k|]. split; [exact h3|]. exists (x :: m1), m2. split; [reflexivity|].
        split; [|exact h5]. intros [->|k]; [apply h2; left; reflexivity|tauto].
    + intros (h1 & h2 & h3 & l1 & l2 & e & h4 & h5). destruct l1 as [|y l1]; inversion e; subst.
      * assert (iv : In v (dedup_from (u :: seen) l2)). { apply dedup_from_In. split; [exact h5|]. intros [k|k]; [congruence|tauto]. }
        apply in_split in iv. destruct iv as (m1 & m2 & em). exists [], m1, m2. cbn. rewrite em. reflexivity.
      * destruct (E u y) as [->|nu].
        -- assert (iv : In v (dedup_from (y :: seen) (l1 ++ y :: l2))).
           { apply dedup_from_In. split; [apply in_app_iff; right; right; exact h5|]. intros [k|k]; [congruence|tauto]. }
           apply in_split in iv. destruct iv as (m1 & m2 & em). exists [], m1, m2. cbn. rewrite em. reflexivity.
        -- assert (P : Precedes u v (dedup_from (y :: seen) (l1 ++ u :: l2))).
           { apply IH. split; [intros [k|k]; [congruence|tauto]|]. split; [intros [k|k]; [apply h4; left; congruence|tauto]|].
             split; [exact h3|]. exists l1, l2. split; [reflexivity|]. split; [intros k; apply h4; right; exact k|exact h5]. }
           destruct P as (m1 & m2 & m3 & em). exists (y :: m1), m2, m3. cbn. rewrite em. reflexivity.
Qed.

Section C44.
  Variable ext : uri -> res (list uri).
  Notation walk := (mro_walk ext).
  Notation mro := (schema_mro ext).

  Definition each n id : list uri -> res (list uri) :=
    fix each (es : list uri) : res (list uri) :=
      match es with
      | [] => Ok []
      | e :: es' => let i := scope e id in do x <- ext i; do sub <- walk n i x; do rest <- each es'; Ok (i :: sub ++ rest)
      end.
  Lemma walk_S n id es : walk (S n) id es = each n id es. Proof. reflexivity. Qed.
  Lemma each_inv n id e es l : each n id (e :: es) = Ok l ->
    exists x sub rest, ext (scope e id) = Ok x /\ walk n (scope e id) x = Ok sub /\ each n id es = Ok rest /\ l = scope e id :: sub ++ rest.
  Proof.
    cbn [each]. destruct (ext (scope e id)) as [x|] eqn:e1; [|discriminate]. cbn [rbind]. destruct (walk n (scope e id) x) as [sub|] eqn:e2; [|discriminate]. cbn [rbind].
    fold (each n id es). destruct (each n id es) as [rest|] eqn:e3; [|discriminate]. cbn [rbind]. intros h. injection h as <-. exists x, sub, rest. repeat split; assumption || reflexivity.
  Qed.

  Definition shift (p : list nat) : list nat := match p with n :: q => S n :: q | [] => [] end.
  Definition Good id es (ps : list (list nat)) (l : list uri) : Prop :=
    Forall2 (fun p u => At ext id es p u) ps l /\ StronglySorted Lex ps /\ (forall p u, At ext id es p u -> In p ps).

  Lemma At_fun id es p u : At ext id es p u -> forall v, At ext id es p v -> u = v.
  Proof.
    induction 1 as [id es n e h|id es n e x p u h hx ha IH]; intros v hv; inversion hv; subst.
    - congruence.
    - match goal with h : At _ _ _ [] _ |- _ => inversion h end.
    - inversion ha.
    - assert (e0 = e) by congruence. subst. assert (x0 = x) by congruence. subst. auto.
  Qed.
  Lemma At_nonempty id es u : ~ At ext id es [] u. Proof. intros h. inversion h. Qed.
  Lemma SS_map {A B} (R : A -> A -> Prop) (S : B -> B -> Prop) (f : A -> B) l :
    (forall x y, In x l -> In y l -> R x y -> S (f x) (f y)) -> StronglySorted R l -> StronglySorted S (map f l).
  Proof.
    intros h. induction 1 as [|x l hs IH hf]; cbn; [constructor|]. constructor.
    - apply IH. intros a b ia ib. apply h; right; assumption.
    - apply Forall_forall. intros y i. apply in_map_iff in i. destruct i as (z & <- & i). apply h; [left; reflexivity|right; exact i|].
      rewrite Forall_forall in hf. apply hf. exact i.
  Qed.
  Lemma SS_app {A} (R : A -> A -> Prop) l1 l2 : StronglySorted R l1 -> StronglySorted R l2 -> (forall x y, In x l1 -> In y l2 -> R x y) ->
    StronglySorted R (l1 ++ l2).
  Proof.
    intros h1 h2 h. induction h1 as [|x l hs IH hf]; cbn; [exact h2|]. constructor.
    - apply IH. intros a b ia ib. apply h; [right|]; assumption.
    - apply Forall_app. split; [exact hf|]. apply Forall_forall. intros y i. apply h; [left; reflexivity|exact i].
  Qed.
  Lemma Forall2_In_l {A B} (R : A -> B -> Prop) l m : Forall2 R l m -> forall x, In x l -> exists y, In y m /\ R x y.
  Proof. induction 1 as [|a b l m r h IH]; intros x []; [subst; exists b; split; [left; reflexivity|exact r]|].
         destruct (IH x H) as (y & i & q). exists y. split; [right; exact i|exact q]. Qed.
  Lemma Forall2_In_r {A B} (R : A -> B -> Prop) l m : Forall2 R l m -> forall y, In y m -> exists x, In x l /\ R x y.
  Proof. induction 1 as [|a b l m r h IH]; intros x []; [subst; exists a; split; [left; reflexivity|exact r]|].
         destruct (IH x H) as (y & i & q). exists y. split; [right; exact i|exact q]. Qed.

  Lemma walk_good : forall n id es l, walk n id es = Ok l -> exists ps, Good id es ps l.
  Proof.
    induction n as [|n IH]; intros id es l h; [discriminate|]. rewrite walk_S in h. revert l h.
    induction es as [|e es IHe]; intros l h.
    - inversion h. exists []. split; [constructor|]. split; [constructor|]. intros p u ha. inversion ha; destruct n0; discriminate.
    - apply each_inv in h. destruct h as (x & sub & rest & hx & hs & hr & ->).
      destruct (IH _ _ _ hs) as (ps1 & f1 & s1 & c1). destruct (IHe _ hr) as (ps2 & f2 & s2 & c2).
      exists ([0] :: map (cons 0) ps1 ++ map shift ps2). split; [|split].
      + constructor; [apply At_here; reflexivity|]. apply Forall2_app.
        * clear - f1 hx. induction f1; cbn; constructor; [|exact IHf1]. eapply At_up; [reflexivity|exact hx|exact H].
        * clear - f2. induction f2; cbn; constructor; [|exact IHf2]. inversion H; subst; cbn; [apply At_here; exact H0|eapply At_up; eassumption].
      + constructor.
        * apply SS_app.
          -- eapply SS_map; [|exact s1]. intros a b _ _ q. apply Lex_eq. exact q.
          -- eapply SS_map; [|exact s2]. intros a b ia ib q. 
             destruct (Forall2_In_l _ _ _ f2 a ia) as (ua & _ & ha).
             inversion q; subst; cbn; [destruct (At_nonempty _ _ _ ha)|apply Lex_lt; lia|apply Lex_eq; assumption].
          -- intros a b ia ib. apply in_map_iff in ia. destruct ia as (a' & <- & _). apply in_map_iff in ib. destruct ib as (b' & <- & ib).
             destruct (Forall2_In_l _ _ _ f2 b' ib) as (ub & _ & hb). destruct b' as [|m b']; [destruct (At_nonempty _ _ _ hb)|]. cbn. apply Lex_lt. lia.
        * apply Forall_forall. intros b ib. apply in_app_iff in ib. destruct ib as [ib|ib]; apply in_map_iff in ib; destruct ib as (b' & <- & ib).
          -- apply Lex_eq. destruct (Forall2_In_l _ _ _ f1 b' ib) as (ub & _ & hb). destruct b' as [|m b']; [destruct (At_nonempty _ _ _ hb)|constructor].
          -- destruct (Forall2_In_l _ _ _ f2 b' ib) as (ub & _ & hb). destruct b' as [|m b']; [destruct (At_nonempty _ _ _ hb)|]. cbn. apply Lex_lt. lia.
      + intros p u ha. inversion ha; subst.
        * destruct n0 as [|n0]; [left; reflexivity|]. right. apply in_app_iff. right. apply in_map_iff. exists [n0]. split; [reflexivity|].
          eapply c2. apply At_here. exact H.
        * destruct n0 as [|n0].
          -- cbn in H. inversion H; subst. assert (x0 = x) by congruence. subst. right. apply in_app_iff. left. apply in_map. eapply c1. exact H1.
          -- right. apply in_app_iff. right. apply in_map_iff. exists (n0 :: p0). split; [reflexivity|]. eapply c2. eapply At_up; eassumption.
  Qed.

  Lemma At_Anc id es p u : At ext id es p u -> Anc ext id es u.
  Proof.
    induction 1 as [id es n e h|id es n e x p u h hx ha IH].
    - apply Anc_base. exists e. split; [eapply nth_error_In; exact h|reflexivity].
    - assert (A0 : Anc ext id es (scope e id)) by (apply Anc_base; exists e; split; [eapply nth_error_In; exact h|reflexivity]).
      clear ha. induction IH as [q hb|q r hq IHq hp]; [eapply Anc_up; [exact A0|]; exists x; split; [exact hx|exact hb]|].
      eapply Anc_up; [exact IHq|exact hp].
  Qed.
  Lemma At_snoc id es p u : At ext id es p u -> forall v, Parent ext v u -> exists q, At ext id es q v.
  Proof.
    induction 1 as [id es n e h|id es n e x p u h hx ha IH]; intros v hv.
    - destruct hv as (xs & hx & e' & i & ->). apply In_nth_error in i. destruct i as (m & i). exists [n; m]. eapply At_up; [exact h|exact hx|]. apply At_here. exact i.
    - destruct (IH v hv) as (q & hq). exists (n :: q). eapply At_up; eassumption.
  Qed.
  Lemma Anc_At id es u : Anc ext id es u -> exists p, At ext id es p u.
  Proof.
    induction 1 as [p (e & i & ->)|q p hq (pq & IH) hp].
    - apply In_nth_error in i. destruct i as (m & i). exists [m]. apply At_here. exact i.
    - eapply At_snoc; eassumption.
  Qed.
  Lemma walk_In n id es l u : walk n id es = Ok l -> In u l <-> Anc ext id es u.
  Proof.
    intros h. destruct (walk_good _ _ _ _ h) as (ps & f & s & c). split.
    - intros i. destruct (Forall2_In_r _ _ _ f u i) as (p & _ & hp). eapply At_Anc. exact hp.
    - intros a. apply Anc_At in a. destruct a as (p & hp). destruct (Forall2_In_l _ _ _ f p (c p u hp)) as (v & i & hv).
      rewrite (At_fun _ _ _ _ hp _ hv). exact i.
  Qed.
  Lemma mro_inv n id es l : mro n id es = Ok l -> exists w, walk n id es = Ok w /\ l = dedup w.
  Proof. unfold schema_mro. destruct (walk n id es) as [w|e]; cbn; intros h; inversion h. exists w. auto. Qed.

  (** The list has each ancestor exactly once and nothing else. *)
  Theorem mro_ancestors : forall n id es l, mro n id es = Ok l -> NoDup l /\ forall u, In u l <-> Anc ext id es u.
  Proof.
    intros n id es l h. apply mro_inv in h. destruct h as (w & h & ->). split; [apply dedup_NoDup|].
    intros u. rewrite dedup_In. eapply walk_In. exact h.
  Qed.

  Lemma SS_split {A} (R : A -> A -> Prop) l1 x l2 : StronglySorted R (l1 ++ x :: l2) -> (forall y, In y l2 -> R x y) /\ (forall y, In y l1 -> R y x).
  Proof.
    induction l1 as [|a l1 IH]; cbn; intros h; inversion h as [|? ? hs hf]; subst.
    - split; [|intros y []]. rewrite Forall_forall in hf. exact hf.
    - destruct (IH hs) as [h1 h2]. split; [exact h1|]. intros y [->|i]; [|auto]. rewrite Forall_forall in hf. apply hf. apply in_app_iff. right. left. reflexivity.
  Qed.
  Lemma Lex_irrefl p : ~ Lex p p. Proof. induction p; intros h; inversion h; subst; [lia|tauto]. Qed.
  Lemma Lex_trans p q r : Lex p q -> Lex q r -> Lex p r.
  Proof.
    intros h. revert r. induction h; intros r hr; inversion hr; subst; try (apply Lex_nil); try (apply Lex_lt; lia).
    apply Lex_eq. apply IHh. assumption.
  Qed.

  (** Depth-first, first visit: [u] comes before [v] exactly when some path to [u] comes before every path to [v]. *)
  Theorem mro_order : forall n id es l u v, mro n id es = Ok l -> Anc ext id es v ->
    (Precedes u v l <-> exists pu, At ext id es pu u /\ forall pv, At ext id es pv v -> Lex pu pv).
  Proof.
    intros n id es l u v h av. apply mro_inv in h. destruct h as (w & h & ->).
    destruct (walk_good _ _ _ _ h) as (ps & f & s & c). unfold dedup. rewrite Precedes_dedup. split.
    - intros (_ & _ & nuv & l1 & l2 & -> & nv & iv). apply Forall2_app_inv_r in f. destruct f as (p1 & p2' & f1 & f2 & ->).
      inversion f2 as [|pu ? p2 ? hu f3]; subst. exists pu. split; [exact hu|]. intros pv hv.
      pose proof (c pv v hv) as i. apply SS_split in s. destruct s as [s2 s1]. apply in_app_iff in i. destruct i as [i|[i|i]].
      + destruct (Forall2_In_l _ _ _ f1 _ i) as (v' & iv' & hv'). rewrite <- (At_fun _ _ _ _ hv _ hv') in iv'. tauto.
      + subst. destruct nuv. eapply At_fun; eassumption.
      + apply s2. exact i.
    - intros (pu & hu & hv). split; [intros []|]. split; [intros []|].
      assert (nuv : u <> v) by (intros ->; exact (Lex_irrefl _ (hv _ hu))). split; [exact nuv|].
      pose proof (c pu u hu) as i. apply in_split in i. destruct i as (p1 & p2 & ->). apply Forall2_app_inv_l in f. destruct f as (l1 & l2' & f1 & f2 & ->).
      inversion f2 as [|? u' ? l2 hu' f3]; subst. rewrite <- (At_fun _ _ _ _ hu _ hu').
      apply SS_split in s. destruct s as [s2 s1].
      assert (nv : ~ In v l1). { intros i. destruct (Forall2_In_r _ _ _ f1 _ i) as (pv & ip & hpv). apply (Lex_irrefl pu). eapply Lex_trans; [apply hv; exact hpv|]. apply s1. exact ip. }
      exists l1, l2. split; [reflexivity|]. split; [exact nv|].
      apply (walk_In _ _ _ _ _ h) in av. apply in_app_iff in av. destruct av as [i|[i|i]]; [tauto| |exact i].
      destruct nuv. rewrite <- i. eapply At_fun; eassumption.
  Qed.

  (** ** termination *)
  Lemma walk_more : forall n id es l, walk n id es = Ok l -> walk (S n) id es = Ok l.
  Proof.
    induction n as [|n IH]; intros id es l h; [discriminate|]. rewrite walk_S in *. revert l h.
    induction es as [|e es IHe]; intros l h; [exact h|]. apply each_inv in h. destruct h as (x & sub & rest & hx & hs & hr & ->).
    cbn [each]. rewrite hx. cbn [rbind]. rewrite (IH _ _ _ hs). cbn [rbind]. fold (each (S n) id es). rewrite (IHe _ hr). reflexivity.
  Qed.
  Lemma walk_more_le n m id es l : n <= m -> walk n id es = Ok l -> walk m id es = Ok l.
  Proof. induction 1; intros h; [exact h|]. apply walk_more. auto. Qed.
  Lemma walk_Acc : forall n id es l, walk n id es = Ok l -> forall p, Base_of id es p -> Acc (Parent ext) p.
  Proof.
    induction n as [|n IH]; intros id es l h; [discriminate|]. rewrite walk_S in h. revert l h.
    induction es as [|e es IHe]; intros l h p (e' & i & ->); [destruct i|].
    apply each_inv in h. destruct h as (x & sub & rest & hx & hs & hr & ->). destruct i as [->|i].
    - constructor. intros q (es' & he & hb). rewrite hx in he. inversion he; subst. eapply IH; eassumption.
    - apply (IHe _ hr). exists e'. split; [exact i|reflexivity].
  Qed.
  Lemma walk_resolves : forall n id es l, walk n id es = Ok l -> forall u, Anc ext id es u -> exists xs, ext u = Ok xs.
  Proof.
    induction n as [|n IH]; intros id es l h; [discriminate|]. rewrite walk_S in h. revert l h.
    induction es as [|e es IHe]; intros l h u a.
    - apply Anc_At in a. destruct a as (p & a). inversion a; destruct n0; discriminate.
    - apply each_inv in h. destruct h as (x & sub & rest & hx & hs & hr & ->). apply Anc_At in a. destruct a as (p & a). inversion a; subst.
      + destruct n0 as [|n0]; cbn in H; [inversion H; subst; exists x; exact hx|]. apply (IHe _ hr). eapply At_Anc. apply At_here. exact H.
      + destruct n0 as [|n0]; cbn in H.
        * inversion H; subst. assert (x0 = x) by congruence. subst. eapply IH; [exact hs|]. eapply At_Anc. exact H1.
        * apply (IHe _ hr). eapply At_Anc. eapply At_up; eassumption.
  Qed.
  Lemma Anc_step id es p x u : Base_of id es p -> ext p = Ok x -> Anc ext p x u -> Anc ext id es u.
  Proof.
    intros hb hx. induction 1 as [q hq|q r hq IH hp]; [eapply Anc_up; [apply Anc_base; exact hb|exists x; split; assumption]|eapply Anc_up; eassumption].
  Qed.
  Lemma Acc_walk : forall id es, (forall u, Anc ext id es u -> exists xs, ext u = Ok xs) -> (forall p, Base_of id es p -> Acc (Parent ext) p) ->
    exists n l, walk n id es = Ok l.
  Proof.
    assert (G : forall p, Acc (Parent ext) p -> forall x, ext p = Ok x -> (forall u, Anc ext p x u -> exists xs, ext u = Ok xs) -> exists n l, walk n p x = Ok l).
    { induction 1 as [p _ IH]. intros x hx hr. 
      assert (S : forall es, incl es x -> exists n l, each n p es = Ok l).
      { induction es as [|e es IHe]; intros hi; [exists 0, []; reflexivity|].
        destruct IHe as (n1 & l1 & h1); [intros z i; apply hi; right; exact i|].
        assert (hb : Base_of p x (scope e p)) by (exists e; split; [apply hi; left; reflexivity|reflexivity]).
        destruct (hr (scope e p)) as (xs & hxs); [apply Anc_base; exact hb|].
        destruct (IH (scope e p)) with (x := xs) as (n2 & l2 & h2); [exists x; split; assumption|exact hxs| |].
        { intros u a. apply hr. eapply Anc_step; eassumption. }
        exists (Nat.max n1 n2), (scope e p :: l2 ++ l1). cbn [each]. rewrite hxs. cbn [rbind].
        rewrite (walk_more_le n2 (Nat.max n1 n2) _ _ _ (Nat.le_max_r _ _) h2). cbn [rbind]. fold (each (Nat.max n1 n2) p es).
        rewrite <- walk_S. rewrite (walk_more_le (S n1) (S (Nat.max n1 n2)) p es l1); [reflexivity|lia|exact h1]. }
      destruct (S x (incl_refl x)) as (n & l & h). exists (Datatypes.S n), l. exact h. }
    intros id es hr ha. 
    assert (S : forall es', incl es' es -> exists n l, each n id es' = Ok l).
    { induction es' as [|e es' IHe]; intros hi; [exists 0, []; reflexivity|].
      destruct IHe as (n1 & l1 & h1); [intros z i; apply hi; right; exact i|].
      assert (hb : Base_of id es (scope e id)) by (exists e; split; [apply hi; left; reflexivity|reflexivity]).
      destruct (hr (scope e id)) as (xs & hxs); [apply Anc_base; exact hb|].
      destruct (G (scope e id) (ha _ hb) xs hxs) as (n2 & l2 & h2).
      { intros u a. apply hr. eapply Anc_step; eassumption. }
      exists (Nat.max n1 n2), (scope e id :: l2 ++ l1). cbn [each]. rewrite hxs. cbn [rbind].
      rewrite (walk_more_le n2 (Nat.max n1 n2) _ _ _ (Nat.le_max_r _ _) h2). cbn [rbind]. fold (each (Nat.max n1 n2) id es').
      rewrite <- walk_S. rewrite (walk_more_le (S n1) (S (Nat.max n1 n2)) id es' l1); [reflexivity|lia|exact h1]. }
    destruct (S es (incl_refl es)) as (n & l & h). exists (Datatypes.S n), l. exact h.
  Qed.

  (** It ends with a list exactly when every ancestor can be found and no chain of extensions is endless. *)
  Theorem mro_terminates_iff : forall id es,
    (exists n l, mro n id es = Ok l) <->
    (forall u, Anc ext id es u -> exists xs, ext u = Ok xs) /\ (forall p, Base_of id es p -> Acc (Parent ext) p).
  Proof.
    intros id es. split.
    - intros (n & l & h). apply mro_inv in h. destruct h as (w & h & _). split; [eapply walk_resolves; exact h|eapply walk_Acc; exact h].
    - intros [h1 h2]. destruct (Acc_walk id es h1 h2) as (n & l & h). exists n, (dedup l). unfold schema_mro. rewrite h. reflexivity.
  Qed.

  (** [Up u v]: [v] is an ancestor of [u] *)
  Inductive Up : uri -> uri -> Prop := Up1 u v : Parent ext v u -> Up u v | UpS u v w : Up u v -> Parent ext w v -> Up u w.
  (** A cycle of extensions among the ancestors: the recursion never ends normally *)
  Theorem mro_cycle : forall n id es u l, Anc ext id es u -> Up u u -> mro n id es <> Ok l.
  Proof.
    intros n id es u l a cy h. destruct (proj1 (mro_terminates_iff id es) (ex_intro _ n (ex_intro _ l h))) as [_ ac].
    assert (au : Acc (Parent ext) u). { clear cy. induction a as [p hb|q p hq IH hp]; [apply ac; exact hb|]. destruct IH as [IH]. apply IH. exact hp. }
    clear - au cy. 
    assert (T : Acc (fun v u => Up u v) u).
    { clear cy. induction au as [u _ IH]. constructor. intros v uv. induction uv as [u v p|u v w uv IHu p]; [apply IH; exact p|].
      destruct (IHu IH) as [q]. apply q. apply Up1. exact p. }
    clear au. induction T as [u _ IH]. exact (IH u cy cy).
  Qed.
  (** Without a cycle, over finitely many schemas that can all be found, it ends. *)
  Theorem mro_acyclic : forall dom id es,
    (forall p, Base_of id es p -> In p dom) ->
    (forall u, In u dom -> exists xs, ext u = Ok xs /\ forall p, Base_of u xs p -> In p dom) ->
    (forall u, In u dom -> ~ Up u u) -> exists n l, mro n id es = Ok l.
  Proof.
    intros dom id es hb hd ac. apply mro_terminates_iff.
    assert (U : forall u v w, Up u v -> Up v w -> Up u w). { intros u v w h1 h2. induction h2 as [a b p|a b c h2 IH p]; [eapply UpS; eassumption|eapply UpS; [apply IH; exact h1|exact p]]. }
    split.
    - intros u a. assert (i : In u dom). { induction a as [p hp|q p hq IH (xs & he & hp)]; [apply hb; exact hp|].
        destruct (hd q IH) as (xs' & he' & h'). rewrite he in he'. inversion he'; subst. apply h'. exact hp. }
      destruct (hd u i) as (xs & e & _). exists xs. exact e.
    - assert (G : forall k u seen, In u dom -> NoDup seen -> incl seen dom -> (forall s, In s seen -> Up s u) -> length dom <= k + length seen -> Acc (Parent ext) u).
      { induction k as [|k IH]; intros u seen iu nd hs hu le.
        - exfalso. assert (nu : ~ In u seen) by (intros i; apply (ac u iu), hu; exact i).
          assert (le2 : length (u :: seen) <= length dom). { apply NoDup_incl_length; [constructor; assumption|]. intros z [<-|i]; [exact iu|apply hs; exact i]. }
          cbn in le2. lia.
        - constructor. intros p hp. assert (ip : In p dom). { destruct hp as (xs & e & hp). destruct (hd u iu) as (xs' & e' & h'). rewrite e in e'. inversion e'; subst. apply h'. exact hp. }
          apply (IH p (u :: seen)); [exact ip| | | |cbn; lia].
          + constructor; [|exact nd]. intros i. exact (ac u iu (hu u i)).
          + intros z [<-|i]; [exact iu|apply hs; exact i].
          + intros z [<-|i]; [apply Up1; exact hp|eapply UpS; [apply hu; exact i|exact hp]]. }
      intros p hp. apply (G (length dom) p []); [apply hb; exact hp|constructor|intros z []|intros z []|cbn; lia].
  Qed.
End C44.
Print Assumptions mro_ancestors.
Print Assumptions mro_order.
Print Assumptions mro_terminates_iff.
Print Assumptions mro_cycle.
Print Assumptions mro_acyclic.

(** ** expand *)
(** Through the builder, expansion always raises TypeError: [schema_mro] takes no [self] (type_builder.py:113, 134). *)
Theorem expand_refuted : forall n look id s, (forall e, look id <> Err e) \/ s <> None -> expand n look id s = Err TypeError.
Proof.
  intros n look id [s|] h; [reflexivity|]. destruct h as [h|h]; [|congruence]. unfold expand.
  destruct (look id) as [s|e]; [reflexivity|]. destruct (h e eq_refl).
Qed.
Print Assumptions expand_refuted.

Lemma chain_first_spec own others k v : chain_first own others k = Some v <->
  exists m1 m m2, own :: others = m1 ++ m :: m2 /\ (forall x, In x m1 -> dget k x = None) /\ dget k m = Some v.
Proof.
  unfold chain_first. generalize (own :: others). intros l. split.
  - destruct (find (fun m => dmem k m) l) as [m|] eqn:f; [|discriminate]. intros g. revert f. induction l as [|x l IH]; [discriminate|]. cbn.
    destruct (dmem k x) eqn:d.
    + intros e. inversion e; subst. exists [], m, l. split; [reflexivity|]. split; [intros x []|exact g].
    + intros e. destruct (IH e) as (m1 & m' & m2 & -> & h & q). exists (x :: m1), m', m2. split; [reflexivity|]. split; [|exact q].
      intros y [<-|i]; [unfold dmem in d; destruct (dget k x); [discriminate|reflexivity]|apply h; exact i].
  - intros (m1 & m & m2 & -> & h & q). induction m1 as [|x m1 IH]; cbn.
    + unfold dmem. rewrite q. exact q.
    + unfold dmem at 1. rewrite (h x (or_introl eq_refl)). apply IH. intros y i. apply h. right. exact i.
Qed.

(** What the body of [expand] computes from the ancestors: unions of the lists, and the nearest definition of each property. *)
Theorem expand_body_spec : forall s mro ex rq ro ns props pats, expand_body s mro = (ex, rq, ro, ns, props, pats) ->
  ex = map fst mro /\
  (forall x, In x rq <-> In x (x_required s) \/ exists a, In a (map snd mro) /\ In x (x_required a)) /\
  (forall x, In x ro <-> In x (x_readonly s) \/ exists a, In a (map snd mro) /\ In x (x_readonly a)) /\
  (forall x, In x ns <-> In x (x_notser s) \/ exists a, In a (map snd mro) /\ In x (x_notser a)) /\
  (forall k v, props k = Some v <-> exists m1 m m2, s :: map snd mro = m1 ++ m :: m2 /\ (forall a, In a m1 -> dget k (x_props a) = None) /\ dget k (x_props m) = Some v) /\
  (forall k v, pats k = Some v <-> exists m1 m m2, s :: map snd mro = m1 ++ m :: m2 /\ (forall a, In a m1 -> dget k (x_patterns a) = None) /\ dget k (x_patterns m) = Some v).
Proof.
  intros s mro ex rq ro ns props pats h. unfold expand_body in h. inversion h; subst. clear h.
  assert (C : forall (f : xschema -> dict string nat) k v, chain_first (f s) (map f (dvals mro)) k = Some v <->
    exists m1 m m2, s :: map snd mro = m1 ++ m :: m2 /\ (forall a, In a m1 -> dget k (f a) = None) /\ dget k (f m) = Some v).
  { intros f k v. rewrite chain_first_spec. change (dvals mro) with (map snd mro). change (f s :: map f (map snd mro)) with (map f (s :: map snd mro)).
    generalize (s :: map snd mro). intros l. split.
    - intros (m1 & m & m2 & e & h & q). apply map_eq_app in e. destruct e as (a1 & a2' & -> & <- & e). apply map_eq_cons in e. destruct e as (a & a2 & -> & <- & <-).
      exists a1, a, a2. split; [reflexivity|]. split; [|exact q]. intros b i. apply h. apply in_map. exact i.
    - intros (m1 & m & m2 & -> & h & q). exists (map f m1), (f m), (map f m2). split; [rewrite map_app; reflexivity|]. split; [|exact q].
      intros x i. apply in_map_iff in i. destruct i as (b & <- & i). apply h. exact i. }
  assert (D : forall (f : xschema -> list string) x, In x (dedup (f s ++ flat_map f (dvals mro))) <-> In x (f s) \/ exists a, In a (map snd mro) /\ In x (f a)).
  { intros f x. rewrite dedup_In, in_app_iff, in_flat_map. reflexivity. }
  repeat split; try apply D; try apply C; reflexivity.
Qed.
Print Assumptions expand_body_spec.

(** a diamond: d extends b and c, both extend a *)
Local Open Scope string_scope. Local Open Scope list_scope.
Definition dia (u : uri) : res (list uri) :=
  if beq u (chars "b") then Ok [chars "a"] else if beq u (chars "c") then Ok [chars "a"] else if beq u (chars "a") then Ok [] else Err InvalidValue.
Example dia_mro : schema_mro dia 3 (chars "d") [chars "b"; chars "c"] = Ok [chars "b"; chars "a"; chars "c"].
Proof. vm_compute. reflexivity. Qed.
Example dia_cycle : forall n, schema_mro (fun u => Ok [chars "x"]) n (chars "x") [chars "x"] = Err RecursionError.
Proof.
  intros n. unfold schema_mro. assert (h : forall n i, mro_walk (fun _ => Ok [chars "x"]) n i [chars "x"] = Err RecursionError).
  { clear n. induction n as [|n IH]; intros i; [reflexivity|]. cbn [mro_walk rbind]. rewrite IH. reflexivity. }
  rewrite h. reflexivity.
Qed.
