(** C81. Attributes and items of objects. *)
From Verif Require Import Base PyVal Alias_Model Alias_Spec Alias_Proofs Alias_Props At_Model At_Spec.
Local Open Scope string_scope.
Local Open Scope list_scope.

(** * the attributes of classes *)
Section Tables.
  Variable clean : string -> string.
  Variable protocol : list string.
  Notation class_attr := (class_attr protocol).
  Notation tables := (tables clean protocol).
  Notation install1 := (install1 clean protocol).
  Notation table := (table clean protocol).

  Lemma dget_snoc (t : dict string cattr) k a x : dget x (t ++ [(k, a)]) = match dget x t with Some b => Some b | None => if eq_dec x k then Some a else None end.
  Proof. induction t as [|[k' b] t IH]; cbn [app dget]; [reflexivity|]. destruct (eq_dec x k'); [reflexivity|exact IH]. Qed.
  Lemma install1_get bases t p x : dget x (install1 bases t p) = dget x t \/ (dget x (install1 bases t p) = Some (CProp p) /\ dget x t = None /\ x = clean p /\
    is_fun (class_attr bases p) = false /\ ~ In p protocol).
  Proof.
    unfold At_Model.install1. destruct (is_fun (class_attr bases p)) eqn:e1; cbn [orb]; [auto|]. destruct (mem p protocol) eqn:e2; cbn [orb]; [auto|].
    destruct (is_fun (dget p t)); [auto|]. destruct (dmem (clean p) t) eqn:e3; [auto|]. rewrite dget_snoc. destruct (dget x t) eqn:ex; [auto|].
    destruct (eq_dec x (clean p)) as [->|]; [|auto]. right. apply mem_not_In in e2. auto.
  Qed.
  (** once a name has something it keeps it *)
  Lemma installs_keep bases l : forall t x a, dget x t = Some a -> dget x (fold_left (install1 bases) l t) = Some a.
  Proof.
    induction l as [|p l IH]; intros t x a e; [exact e|]. cbn [fold_left]. apply IH. destruct (install1_get bases t p x) as [h|(h1 & h2 & _)]; congruence.
  Qed.
  Lemma installs_new bases l : forall t x, dget x t = None ->
    dget x (fold_left (install1 bases) l t) = None \/
    exists p, In p l /\ dget x (fold_left (install1 bases) l t) = Some (CProp p) /\ x = clean p /\ is_fun (class_attr bases p) = false /\ ~ In p protocol.
  Proof.
    induction l as [|p l IH]; intros t x e; [left; exact e|]. cbn [fold_left]. destruct (install1_get bases t p x) as [h|(h1 & h2 & h3 & h4 & h5)].
    - destruct (IH (install1 bases t p) x) as [g|(q & i & g)]; [congruence|auto|]. right. exists q. split; [right; exact i|exact g].
    - right. exists p. split; [left; reflexivity|]. split; [apply installs_keep; exact h1|auto].
  Qed.
  Lemma body_get props k x : (dget x (body clean props k) <> None -> In x (dkeys (k_attrs k)) /\ ~ In x (map clean props)) /\
    forall p, dget x (body clean props k) <> Some (CProp p).
  Proof.
    unfold body. generalize (k_attrs k) as l. induction l as [|[m b] l [IH1 IH2]]; [split; [intros h; destruct (h eq_refl)|discriminate]|].
    cbn [filter fst]. destruct (mem m (map clean props)) eqn:em; cbn [negb].
    - split; [|exact IH2]. intros h. destruct (IH1 h). split; [right; assumption|assumption].
    - cbn [map fst snd dget]. destruct (eq_dec x m) as [->|ne].
      + split; [|destruct b; discriminate]. intros _. split; [left; reflexivity|apply mem_not_In in em; exact em].
      + split; [|exact IH2]. intros h. destruct (IH1 h). split; [right; assumption|assumption].
  Qed.
  Lemma with_defs_get k t x : dget x (with_defs k t) = if mem x (k_defs k) then Some (CVal x) else dget x t.
  Proof.
    unfold with_defs. revert t. induction (k_defs k) as [|m l IH]; intros t; [reflexivity|]. cbn [fold_left mem]. rewrite IH.
    destruct (mem x l) eqn:em; [destruct (eq_dec x m); reflexivity|]. destruct (eq_dec x m) as [->|ne]; [apply dget_dset_same|apply dget_dset_other; congruence].
  Qed.
  (** what a table holds *)
  Lemma table_get props bases k x a : dget x (table props bases k) = Some a ->
    (exists p, a = CProp p /\ In p (k_local k) /\ x = clean p /\ ~ In p protocol) \/
    (a = CVal x /\ In x (k_defs k)) \/ (In x (dkeys (k_attrs k)) /\ ~ In x (map clean props) /\ forall p, a <> CProp p).
  Proof.
    intros e. unfold At_Model.table in e. destruct (dget x (with_defs k (body clean props k))) as [b|] eqn:eb.
    - rewrite (installs_keep _ _ _ _ _ eb) in e. injection e as <-. rewrite with_defs_get in eb. destruct (mem x (k_defs k)) eqn:em.
      + injection eb as <-. right. left. apply mem_In in em. auto.
      + right. right. destruct (body_get props k x) as [h1 h2]. destruct h1; [congruence|]. repeat split; auto. intros p ->. exact (h2 p eb).
    - destruct (installs_new bases (k_local k) _ _ eb) as [h|(p & i & h & -> & _ & np)]; [congruence|]. rewrite h in e. injection e as <-. left. eauto.
  Qed.
  Lemma attr_get_cases ks x a : class_attr (tables ks) x = Some a ->
    (exists p, a = CProp p /\ In p (all_props ks) /\ x = clean p /\ ~ In p protocol) \/
    (exists k, In k ks /\ ((a = CVal x /\ In x (k_defs k)) \/ (In x (dkeys (k_attrs k)) /\ forall p, a <> CProp p))) \/ (a = CFun x /\ In x protocol).
  Proof.
    induction ks as [|k ks IH]; intros e; cbn [At_Model.tables At_Model.class_attr] in e.
    - destruct (mem x protocol) eqn:em; [|discriminate]. injection e as <-. apply mem_In in em. auto.
    - destruct (dget x (table (all_props (k :: ks)) (tables ks) k)) as [b|] eqn:eb.
      + injection e as <-. apply table_get in eb. destruct eb as [(p & -> & i & -> & np)|[h|(h1 & _ & h2)]].
        * left. exists p. split; [reflexivity|]. split; [apply in_or_app; left; exact i|auto].
        * right. left. exists k. split; [left; reflexivity|auto].
        * right. left. exists k. split; [left; reflexivity|auto].
      + destruct (IH e) as [(p & -> & i & -> & np)|[(k' & i & h)|h]]; [left; exists p; split; [reflexivity|]; split; [apply in_or_app; right; exact i|auto]|right; left; exists k'; split; [right; exact i|exact h]|auto].
  Qed.

  (** A property that nothing hides is an attribute under its translated name, in its class and in the classes below. *)
  Theorem property_attribute : forall below k above p, In p (k_local k) -> Unhidden clean protocol below k above p ->
    class_attr (tables (below ++ k :: above)) (clean p) = Some (CProp p).
  Proof.
    intros below k above p ip. induction below as [|c below IH]; intros [u1 u2 u3 u4 u5].
    - cbn [app] in *. cbn [At_Model.tables At_Model.class_attr]. unfold At_Model.table.
      assert (nf : is_fun (class_attr (tables above) p) = false).
      { destruct (class_attr (tables above) p) as [[q|f|v]|] eqn:e; try reflexivity. exfalso. apply attr_get_cases in e.
        destruct e as [(q & h & _)|[(c & i & [[h _]|[h _]])|[_ h]]]; try discriminate; [|contradiction]. destruct (u2 c i). contradiction. }
      assert (e0 : dget (clean p) (with_defs k (body clean (all_props (k :: above)) k)) = None).
      { rewrite with_defs_get. rewrite (proj2 (mem_not_In _ _ _) (u4 k (or_introl eq_refl))).
        destruct (dget (clean p) (body clean (all_props (k :: above)) k)) eqn:e; [|reflexivity]. exfalso.
        destruct (body_get (all_props (k :: above)) k (clean p)) as [h _]. destruct h as [_ h]; [congruence|]. apply h. apply in_map. apply in_or_app. left. exact ip. }
      assert (e1 : forall q, is_fun (dget q (with_defs k (body clean (all_props (k :: above)) k))) = true -> q <> p).
      { intros q h ->. rewrite with_defs_get in h. destruct (mem p (k_defs k)); [discriminate|]. destruct (body_get (all_props (k :: above)) k p) as [h1 _].
        destruct h1 as [h1 h2]; [intros h1; rewrite h1 in h; discriminate|]. destruct (eq_dec p (clean p)) as [ep|np].
        - apply h2. rewrite ep. apply in_map. apply in_or_app. left. exact ip.
        - exact (u3 np k (or_introl eq_refl) h1). }
      assert (hl : forall q, In q (k_local k) -> clean q = clean p -> q = p) by (intros q iq; apply u5; apply in_or_app; left; exact iq).
      clear u5. revert e0 e1 ip hl. generalize (with_defs k (body clean (all_props (k :: above)) k)) as t. induction (k_local k) as [|q l IHl]; intros t e0 e1 ip hl; [destruct ip|].
      cbn [fold_left]. destruct (eq_dec q p) as [->|nq].
      + assert (h : dget (clean p) (install1 (tables above) t p) = Some (CProp p)).
        { unfold At_Model.install1. rewrite nf, (proj2 (mem_not_In _ _ _) u1). cbn [orb].
          destruct (is_fun (dget p t)) eqn:ef; [destruct (e1 p ef eq_refl)|]. destruct (dmem (clean p) t) eqn:ed; [apply dmem_In in ed; apply dget_None in e0; contradiction|].
          rewrite dget_snoc, e0. destruct (eq_dec _ _); congruence. }
        rewrite (installs_keep _ _ _ _ _ h). reflexivity.
      + apply IHl.
        * destruct (install1_get (tables above) t q (clean p)) as [h|(_ & _ & h & _)]; [congruence|]. destruct nq. apply hl; [left; reflexivity|congruence].
        * intros q' h. apply e1. destruct (install1_get (tables above) t q q') as [h1|(h1 & _)]; [rewrite h1 in h; exact h|rewrite h1 in h; discriminate].
        * destruct ip; [contradiction|assumption].
        * intros q' i. apply hl. right. exact i.
    - cbn [app]. cbn [At_Model.tables At_Model.class_attr].
      destruct (dget (clean p) (table (all_props (c :: below ++ k :: above)) (tables (below ++ k :: above)) c)) as [a|] eqn:e.
      + apply table_get in e. destruct e as [(q & -> & iq & eq & _)|[[_ h]|(_ & h & _)]].
        * rewrite (u5 q); [reflexivity| |congruence]. cbn [app]. apply in_or_app. left. exact iq.
        * destruct (u4 c (or_introl eq_refl) h).
        * destruct h. apply in_map. apply in_flat_map. exists k. split; [right; apply in_or_app; right; left; reflexivity|exact ip].
      + apply IH. constructor; [exact u1|exact u2| | | ].
        * intros np c' i. apply (u3 np). right. exact i.
        * intros c' i. apply u4. right. exact i.
        * intros q i. apply u5. cbn [app]. apply in_or_app. right. exact i.
  Qed.
  (** A method written in the body of the class under the name of a property, its own or inherited, is lost. *)
  Theorem method_lost_refuted : forall below k above p c, In p (k_local k) -> Unhidden clean protocol below k above p -> In c (below ++ [k]) ->
    In (clean p, true) (k_attrs c) -> class_attr (tables (below ++ k :: above)) (clean p) <> Some (CFun (clean p)).
  Proof. intros below k above p c ip u _ _. rewrite (property_attribute below k above p ip u). discriminate. Qed.
  (** A property named like a method that every object has is not an attribute under any name. *)
  Theorem protocol_hides_refuted : forall ks p x, In p protocol -> class_attr (tables ks) x <> Some (CProp p).
  Proof. intros ks p x i e. apply attr_get_cases in e. destruct e as [(q & h & _ & _ & nq)|[(k & _ & [[h _]|[_ h]])|[h _]]]; try discriminate; [injection h as <-; contradiction|exact (h p eq_refl)]. Qed.
  (** A property named like an inner definition of the class: the attribute is the definition. *)
  Theorem definition_hides_refuted : forall k above p, In (clean p) (k_defs k) -> class_attr (tables (k :: above)) (clean p) = Some (CVal (clean p)).
  Proof.
    intros k above p i. cbn [At_Model.tables At_Model.class_attr]. unfold At_Model.table.
    erewrite installs_keep; [reflexivity|]. rewrite with_defs_get, (proj2 (mem_In _ _ _) i). reflexivity.
  Qed.
  Lemma body_kept props k x b : dget x (k_attrs k) = Some b -> ~ In x (map clean props) -> dget x (body clean props k) = Some (if b then CFun x else CVal x).
  Proof.
    unfold body. intros e ni. revert e. generalize (k_attrs k) as l. induction l as [|[m c] l IH]; [discriminate|]. cbn [dget].
    destruct (eq_dec x m) as [<-|ne].
    - intros h. injection h as ->. cbn [filter fst]. rewrite (proj2 (mem_not_In _ _ _) ni). cbn [negb map fst snd dget]. destruct (eq_dec x x); [reflexivity|congruence].
    - intros h. cbn [filter fst]. destruct (mem m (map clean props)); cbn [negb]; [apply IH; exact h|]. cbn [map fst snd dget].
      destruct (eq_dec x m); [congruence|apply IH; exact h].
  Qed.
  (** A method or a value of a class body that is not called like a property or an inner definition is what the class gives under that name. *)
  Theorem own_attribute_kept : forall k above x b, dget x (k_attrs k) = Some b -> ~ In x (map clean (all_props (k :: above))) -> ~ In x (k_defs k) ->
    class_attr (tables (k :: above)) x = Some (if b then CFun x else CVal x).
  Proof.
    intros k above x b e ni nd. cbn [At_Model.tables At_Model.class_attr]. unfold At_Model.table.
    erewrite installs_keep; [reflexivity|]. rewrite with_defs_get, (proj2 (mem_not_In _ _ _) nd). apply body_kept; assumption.
  Qed.
  (** A property named like a method of the class above is not an attribute under any name; one named like a value is. *)
  Theorem method_above_hides_refuted : forall k k0 above p x, In p (k_local k) -> dget p (k_attrs k0) = Some true -> ~ In p (k_defs k0) ->
    ~ In p (map clean (all_props (k0 :: above))) -> ~ In p (all_props (k0 :: above)) -> class_attr (tables (k :: k0 :: above)) x <> Some (CProp p).
  Proof.
    intros k k0 above p x _ e nd nc np h.
    assert (f : is_fun (class_attr (tables (k0 :: above)) p) = true) by (rewrite (own_attribute_kept _ _ _ _ e nc nd); reflexivity).
    change (tables (k :: k0 :: above)) with (table (all_props (k :: k0 :: above)) (tables (k0 :: above)) k :: tables (k0 :: above)) in h.
    change (class_attr (table (all_props (k :: k0 :: above)) (tables (k0 :: above)) k :: tables (k0 :: above)) x) with
      (match dget x (table (all_props (k :: k0 :: above)) (tables (k0 :: above)) k) with Some a => Some a | None => class_attr (tables (k0 :: above)) x end) in h.
    destruct (dget x (table (all_props (k :: k0 :: above)) (tables (k0 :: above)) k)) as [a|] eqn:ea.
    - injection h as ->. unfold At_Model.table in ea. destruct (dget x (with_defs k (body clean (all_props (k :: k0 :: above)) k))) as [b|] eqn:eb.
      + rewrite (installs_keep _ _ _ _ _ eb) in ea. injection ea as ->. rewrite with_defs_get in eb. destruct (mem x (k_defs k)); [discriminate|].
        exact (proj2 (body_get _ k x) p eb).
      + destruct (installs_new (tables (k0 :: above)) (k_local k) _ x eb) as [g|(q & _ & g & _ & nf & _)]; rewrite g in ea; [discriminate|].
        injection ea as ->. rewrite f in nf. discriminate.
    - apply attr_get_cases in h. destruct h as [(q & hq & iq & _)|[(c & _ & [[hq _]|[_ hq]])|[hq _]]]; try discriminate hq; [injection hq as <-; contradiction|exact (hq p eq_refl)].
  Qed.
  Theorem value_above_kept : forall k k0 above p, In p (k_local k) -> clean p = p -> dget p (k_attrs k0) = Some false -> ~ In p (k_defs k0) -> ~ In p (k_defs k) ->
    ~ In p (map clean (all_props (k0 :: above))) -> ~ In p protocol -> (forall q, In q (k_local k) -> clean q = p -> q = p) ->
    class_attr (tables (k :: k0 :: above)) p = Some (CProp p).
  Proof.
    intros k k0 above p ip cp e nd0 nd nc npr un.
    assert (f : is_fun (class_attr (tables (k0 :: above)) p) = false) by (rewrite (own_attribute_kept _ _ _ _ e nc nd0); reflexivity).
    change (match dget p (table (all_props (k :: k0 :: above)) (tables (k0 :: above)) k) with Some a => Some a | None => class_attr (tables (k0 :: above)) p end = Some (CProp p)).
    assert (b0 : dget p (with_defs k (body clean (all_props (k :: k0 :: above)) k)) = None).
    { rewrite with_defs_get, (proj2 (mem_not_In _ _ _) nd). destruct (dget p (body clean (all_props (k :: k0 :: above)) k)) eqn:eb; [|reflexivity].
      destruct (proj1 (body_get (all_props (k :: k0 :: above)) k p)) as [_ h]; [congruence|]. exfalso. apply h. rewrite <- cp. apply in_map. unfold all_props. cbn [flat_map]. apply in_or_app. auto. }
    assert (g : dget p (table (all_props (k :: k0 :: above)) (tables (k0 :: above)) k) = Some (CProp p)).
    { unfold At_Model.table. revert b0. generalize (with_defs k (body clean (all_props (k :: k0 :: above)) k)) as t. revert ip un. generalize (k_local k) as l.
      induction l as [|q l IH]; intros ip un t b0; [destruct ip|]. cbn [fold_left]. destruct (eq_dec q p) as [->|ne].
      - apply installs_keep. unfold At_Model.install1. rewrite f, (proj2 (mem_not_In _ _ _) npr), b0. cbn [orb is_fun]. rewrite cp. unfold dmem. rewrite b0.
        rewrite dget_snoc, b0. destruct (eq_dec p p); congruence.
      - apply IH; [destruct ip; [congruence|assumption] | intros r i; apply un; right; exact i|].
        destruct (install1_get (tables (k0 :: above)) t q p) as [h|(h1 & _ & h3 & _)]; [congruence|]. exfalso. apply ne. apply un; [left; reflexivity|congruence]. }
    rewrite g. reflexivity.
  Qed.
End Tables.

(** * reading and assigning *)
Lemma private_spec k : private k = true <-> Private k.
Proof.
  unfold private, Private. split.
  - destruct k as [|c s]; [discriminate|]. intros h. exists s. destruct c as [[] [] [] [] [] [] [] []]; try discriminate h; reflexivity.
  - intros (s & ->). reflexivity.
Qed.
Lemma dunder_spec k : dunder k = true <-> Dunder k.
Proof.
  unfold dunder, Dunder. split.
  - destruct k as [|c k]; [discriminate|]. destruct k as [|c' s]; intros h; [exfalso; destruct c as [[] [] [] [] [] [] [] []]; discriminate h|]. exists s.
    destruct c as [[] [] [] [] [] [] [] []]; try discriminate h. destruct c' as [[] [] [] [] [] [] [] []]; try discriminate h. reflexivity.
  - intros (s & ->). reflexivity.
Qed.

Section Names.
  Variable n : names.
  Hypothesis ty : Tidy n.

  Lemma prop_plain p : In p (nm_props n) -> dget p (nm_alias n) = None /\ dget p (nm_neg n) = None /\ dget p (nm_trans n) = None.
  Proof.
    intros i. repeat split; apply dget_None; intros h; unfold dkeys in h; apply in_map_iff in h; destruct h as ([a q] & e & h); cbn in e; subst a.
    - destruct (ty_alias n ty p q (or_introl h)). contradiction.
    - destruct (ty_alias n ty p q (or_intror h)). contradiction.
    - destruct (ty_trans n ty p q h). contradiction.
  Qed.
  Lemma means_prop k p s : Means n k p s -> In p (nm_props n).
  Proof. intros [q i|t q i|a q i|a q i]; [exact i|apply (ty_trans n ty t q i)|apply (ty_alias n ty a q); auto|apply (ty_alias n ty a q); auto]. Qed.
  Lemma find_other k : ~ In k (nm_props n) -> ~ In k (dkeys (nm_trans n)) -> find (fun p => beq k (snd p) || beq k (fst p)) (nm_trans n) = None.
  Proof.
    intros h1 h2. apply find_trans. intros t r i. split.
    - intros ->. apply h2. unfold dkeys. apply in_map_iff. exists (k, r). auto.
    - intros ->. apply h1. apply (ty_trans n ty t k i).
  Qed.
  Lemma alias_no_trans a p : In (a, p) (nm_alias n) \/ In (a, p) (nm_neg n) -> ~ In a (dkeys (nm_trans n)).
  Proof.
    intros i h. destruct (ty_alias n ty a p i) as [na _]. destruct (sep_ta n (ty_sep n ty) a h na) as [h1 h2].
    destruct i as [i|i]; [apply h1|apply h2]; eapply key_of; exact i.
  Qed.
  (** where a name leads *)
  Lemma means_raw k p s : Means n k p s -> (exists t, raw_trans n k = Some (p, t)) /\ dmem k (nm_neg n) = s.
  Proof.
    intros m. pose proof (ty_sep n ty) as S. unfold raw_trans. destruct m as [p i|t p i|a p i|a p i].
    - rewrite (proj2 (mem_In _ _ _) i). split; [eauto|]. destruct (prop_plain p i) as (_ & h & _). apply dmem_false. apply dget_None. exact h.
    - destruct (ty_trans n ty t p i) as [nt ip]. rewrite (proj2 (mem_not_In _ _ _) nt).
      assert (hk : In t (dkeys (nm_trans n))) by (eapply key_of; exact i).
      split; [|apply dmem_false; apply (sep_ta n S t hk nt)].
      destruct (find _ (nm_trans n)) as [[t' r]|] eqn:ef.
      + apply find_some in ef. destruct ef as [it b]. cbn [fst snd] in b. apply orb_prop in b. destruct b as [b|b]; apply beq_true in b; subst.
        * destruct (ty_trans n ty t' _ it). contradiction.
        * pose proof (In_dget _ _ _ (sep_trans n S) it) as g1. pose proof (In_dget _ _ _ (sep_trans n S) i) as g2. rewrite g1 in g2. injection g2 as <-. eauto.
      + exfalso. apply find_none with (x := (t, p)) in ef; [|exact i]. cbn [fst snd] in ef. rewrite beq_refl, orb_true_r in ef. discriminate.
    - destruct (ty_alias n ty a p (or_introl i)) as [na ip]. rewrite (proj2 (mem_not_In _ _ _) na).
      rewrite (find_other a na (alias_no_trans a p (or_introl i))), (In_dget _ _ _ (sep_alias n S) i). split; [eauto|].
      apply dmem_false. apply (sep_an n S). eapply key_of; exact i.
    - destruct (ty_alias n ty a p (or_intror i)) as [na ip]. rewrite (proj2 (mem_not_In _ _ _) na).
      rewrite (find_other a na (alias_no_trans a p (or_intror i))). pose proof (In_dget _ _ _ (sep_neg n S) i) as g.
      assert (ga : dget a (nm_alias n) = None) by (apply dget_None; intros h; apply (sep_an n S a h); eapply key_of; exact i).
      rewrite ga, g. split; [eauto|]. apply dmem_In. eapply key_of; exact i.
  Qed.
  Lemma raw_means k raw t : raw_trans n k = Some (raw, t) -> (exists s, Means n k raw s) \/ (raw = k /\ nm_additional n = true /\ forall p s, ~ Means n k p s).
  Proof.
    intros e. unfold raw_trans in e. destruct (mem k (nm_props n)) eqn:em; [injection e as <- <-; left; exists false; constructor; apply mem_In in em; exact em|].
    destruct (find _ (nm_trans n)) as [[t' r]|] eqn:ef.
    - injection e as <- <-. apply find_some in ef. destruct ef as [it b]. cbn [fst snd] in b. apply orb_prop in b. left. exists false. destruct b as [b|b]; apply beq_true in b; subst.
      + apply M_own. apply (ty_trans n ty _ _ it).
      + apply M_trans. exact it.
    - destruct (dget k (nm_alias n)) as [r|] eqn:ea; [injection e as <- <-; left; exists false; apply M_alias; apply dget_In; exact ea|].
      destruct (dget k (nm_neg n)) as [r|] eqn:en; [injection e as <- <-; left; exists true; apply M_neg; apply dget_In; exact en|].
      destruct (nm_additional n); [|discriminate]. injection e as <- <-. right. split; [reflexivity|]. split; [reflexivity|].
      intros p s m. destruct m as [p i|t' p i|a p i|a p i].
      + rewrite (proj2 (mem_In _ _ _) i) in em. discriminate.
      + apply find_none with (x := (t', p)) in ef; [|exact i]. cbn [fst snd] in ef. rewrite beq_refl, orb_true_r in ef. discriminate.
      + apply dget_None in ea. apply ea. eapply key_of; exact i.
      + apply dget_None in en. apply en. eapply key_of; exact i.
  Qed.
  Lemma no_means_raw k : (forall p s, ~ Means n k p s) ->
    ~ In k (nm_props n) /\ dget k (nm_alias n) = None /\ dget k (nm_neg n) = None /\ dget k (nm_trans n) = None /\ forall t r, In (t, r) (nm_trans n) -> t <> k /\ r <> k.
  Proof.
    intros h. split; [intros i; exact (h k false (M_own n k i))|].
    split; [destruct (dget k (nm_alias n)) eqn:e; [destruct (h _ _ (M_alias n k s (dget_In _ _ _ e)))|reflexivity]|].
    split; [destruct (dget k (nm_neg n)) eqn:e; [destruct (h _ _ (M_neg n k s (dget_In _ _ _ e)))|reflexivity]|].
    split; [destruct (dget k (nm_trans n)) eqn:e; [destruct (h _ _ (M_trans n k s (dget_In _ _ _ e)))|reflexivity]|].
    intros t r i. split; intros ->; [exact (h _ _ (M_trans n k r i))|]. apply (h k false). apply M_own. apply (ty_trans n ty t k i).
  Qed.
  Lemma means_key k p s : Means n k p s -> get_key n k = (if mem k (nm_props n) || dmem k (nm_trans n) then k else p).
  Proof.
    intros m. pose proof (ty_sep n ty) as S. unfold get_key, or_self. destruct m as [p i|t p i|a p i|a p i].
    - rewrite (proj2 (mem_In _ _ _) i). destruct (prop_plain p i) as (h1 & h2 & _). rewrite h2, h1. reflexivity.
    - assert (hk : In t (dkeys (nm_trans n))) by (eapply key_of; exact i). rewrite (proj2 (dmem_In _ _) hk), orb_true_r.
      destruct (ty_trans n ty t p i) as [nt _]. destruct (sep_ta n S t hk nt) as [h1 h2]. apply dget_None in h1. apply dget_None in h2. rewrite h2, h1. reflexivity.
    - destruct (ty_alias n ty a p (or_introl i)) as [na ip]. rewrite (proj2 (mem_not_In _ _ _) na).
      rewrite (proj2 (dmem_false _ _) (alias_no_trans a p (or_introl i))). cbn [orb].
      assert (g : dget a (nm_neg n) = None) by (apply dget_None; apply (sep_an n S); eapply key_of; exact i). rewrite g, (In_dget _ _ _ (sep_alias n S) i). reflexivity.
    - destruct (ty_alias n ty a p (or_intror i)) as [na ip]. rewrite (proj2 (mem_not_In _ _ _) na).
      rewrite (proj2 (dmem_false _ _) (alias_no_trans a p (or_intror i))). cbn [orb]. rewrite (In_dget _ _ _ (sep_neg n S) i).
      destruct (prop_plain p ip) as (h & _). rewrite h. reflexivity.
  Qed.
  (** reading an item by any of its names gives what is stored *)
  Lemma item_means k p s o : Means n k p s -> item_get n k o = match dget p (o_items o) with Some v => Ok v | None => Err KeyError end.
  Proof.
    intros m. pose proof (means_prop k p s m) as ip. unfold item_get, alias_get. rewrite (means_key k p s m).
    assert (mm : exists t, raw_trans n (if mem k (nm_props n) || dmem k (nm_trans n) then k else p) = Some (p, t)).
    { destruct (mem k (nm_props n) || dmem k (nm_trans n)); [apply (means_raw k p s m)|apply (means_raw p p false (M_own n p ip))]. }
    destruct mm as (t & ->). unfold alias_get_by. rewrite (means_key k p s m), (proj2 (mem_In _ _ _) ip).
    destruct (dmem p (o_items o)) eqn:ed.
    - apply dmem_In in ed. destruct (dget p (o_items o)) as [v|] eqn:eg; [|apply dget_None in eg; contradiction].
      assert (hn : dmem (if mem k (nm_props n) || dmem k (nm_trans n) then k else p) (nm_neg n) = false).
      { destruct (mem k (nm_props n)) eqn:e1; cbn [orb].
        - apply mem_In in e1. apply dmem_false. apply dget_None. apply (prop_plain k e1).
        - destruct (dmem k (nm_trans n)) eqn:e2; [|apply dmem_false; apply dget_None; apply (prop_plain p ip)]. apply dmem_In in e2. apply mem_not_In in e1.
          apply dmem_false. apply (sep_ta n (ty_sep n ty) k e2 e1). }
      rewrite hn. reflexivity.
    - apply dmem_false in ed. apply dget_None in ed. rewrite ed. reflexivity.
  Qed.
  Lemma means_allowed k p s : Means n k p s -> allowed n k = true.
  Proof.
    unfold allowed. intros [q i|t q i|a q i|a q i].
    - rewrite (proj2 (mem_In _ _ _) i). reflexivity.
    - rewrite (proj2 (dmem_In _ _) (key_of _ _ _ i)). apply orb_true_r.
    - rewrite (proj2 (dmem_In _ _) (key_of _ _ _ i)), !orb_true_r. reflexivity.
    - rewrite (proj2 (dmem_In _ _) (key_of _ _ _ i)), !orb_true_r. reflexivity.
  Qed.
  Lemma means_set k p s v d : Means n k p s ->
    alias_set n k v d = (do w <- (if s then py_neg v else Ok v); Ok (dset p w d)).
  Proof.
    intros m. pose proof (means_prop k p s m) as ip. destruct (means_raw k p s m) as ((t & er) & en). unfold alias_set, alias_set_by.
    rewrite er, (proj2 (mem_In _ _ _) ip), en. reflexivity.
  Qed.
  Lemma no_means_set k v d : (forall p s, ~ Means n k p s) -> alias_set n k v d = if nm_additional n then Ok (dset k v d) else Err KeyError.
  Proof.
    intros h. destruct (no_means_raw k h) as (h1 & h2 & h3 & _ & h5). unfold alias_set, alias_set_by, raw_trans.
    rewrite (proj2 (mem_not_In _ _ _) h1), (find_trans n k h5), h2, h3. destruct (nm_additional n); [|reflexivity].
    rewrite (proj2 (mem_not_In _ _ _) h1). apply dget_None in h3. apply dmem_false in h3. rewrite h3. reflexivity.
  Qed.
  Lemma not_means k : (exists p s, Means n k p s) \/ forall p s, ~ Means n k p s.
  Proof.
    destruct (raw_trans n k) as [[raw t]|] eqn:e.
    - destruct (raw_means k raw t e) as [(s & m)|(_ & _ & h)]; [left; eauto|right; exact h].
    - right. intros p s m. destruct (means_raw k p s m) as ((t & h) & _). congruence.
  Qed.

  Variable attr : string -> option cattr.
  Variable orig required : list string.
  Variable by_name : option (string -> res pyval).
  Variable fun_value : cattr -> pyval.
  Notation attr_get := (attr_get n attr orig required by_name fun_value).
  Notation attr_set := (attr_set n).
  Notation item_get := (item_get n).
  Notation item_set := (item_set n).

  (** the object's own dictionary holds private names that stand for no property *)
  Definition Sound (o : obj) : Prop := forall k, In k (dkeys (o_private o)) -> private k = true /\ allowed n k = false.
  Lemma sound_step o x : Sound o -> Sound (astep n o x).
  Proof.
    intros h. unfold astep. destruct x as [k v|k v].
    - unfold At_Model.attr_set. destruct (private k && negb (allowed n k)) eqn:e.
      + apply andb_prop in e. destruct e as [e1 e2]. apply negb_true_iff in e2. intros k' i. cbn [o_private] in i. apply In_dkeys_dset in i. destruct i as [->|i]; auto.
      + destruct (alias_set n k v (o_items o)) as [d|[]]; exact h.
    - unfold At_Model.item_set. destruct (alias_set n k v (o_items o)); exact h.
  Qed.
  Lemma sound_run ops : forall o, Sound o -> Sound (fold_left (astep n) ops o).
  Proof. induction ops as [|x ops IH]; intros o h; [exact h|]. cbn [fold_left]. apply IH. apply sound_step. exact h. Qed.

  Lemma sound_lacks o k p s : Sound o -> Means n k p s -> dget k (o_private o) = None.
  Proof. intros h m. apply dget_None. intros i. destruct (h k i) as [_ e]. rewrite (means_allowed k p s m) in e. discriminate. Qed.
  Lemma attr_means o k p s : Sound o -> Means n k p s -> attr k = Some (CProp p) \/ (attr k = None /\ ~ Dunder k) ->
    attr_get k o = match dget p (o_items o) with Some v => Ok v | None => Err KeyError end.
  Proof.
    intros so m [e|[e nd]]; unfold At_Model.attr_get; rewrite e.
    - unfold desc_get. destruct (dget p (o_items o)); reflexivity.
    - rewrite (sound_lacks o k p s so m). unfold getattr_. rewrite (means_allowed k p s m). cbn [negb].
      assert (ed : dunder k = false) by (destruct (dunder k) eqn:h; [apply dunder_spec in h; contradiction|reflexivity]). rewrite ed. cbn [orb]. rewrite andb_false_r.
      fold (get_key n k). rewrite (means_key k p s m). pose proof (means_prop k p s m) as ip.
      assert (er : or_self (nm_trans n) (if mem k (nm_props n) || dmem k (nm_trans n) then k else p) = p /\
                   dmem (if mem k (nm_props n) || dmem k (nm_trans n) then k else p) (nm_neg n) = false).
      { assert (hp : or_self (nm_trans n) p = p /\ dmem p (nm_neg n) = false).
        { destruct (prop_plain p ip) as (_ & h2 & h3). unfold or_self. rewrite h3. split; [reflexivity|]. apply dmem_false. apply dget_None. exact h2. }
        destruct m as [p i|t p i|a p i|a p i].
        - rewrite (proj2 (mem_In _ _ _) i). exact hp.
        - pose proof (key_of _ _ _ i) as hk. rewrite (proj2 (dmem_In _ _) hk), orb_true_r. unfold or_self. rewrite (In_dget _ _ _ (sep_trans n (ty_sep n ty)) i).
          split; [reflexivity|]. apply dmem_false. apply (sep_ta n (ty_sep n ty) t hk). apply (ty_trans n ty t p i).
        - destruct (ty_alias n ty a p (or_introl i)) as [na _]. rewrite (proj2 (mem_not_In _ _ _) na), (proj2 (dmem_false _ _) (alias_no_trans a p (or_introl i))). exact hp.
        - destruct (ty_alias n ty a p (or_intror i)) as [na _]. rewrite (proj2 (mem_not_In _ _ _) na), (proj2 (dmem_false _ _) (alias_no_trans a p (or_intror i))). exact hp. }
      destruct er as [-> ->]. rewrite (proj2 (mem_In _ _ _) ip). unfold desc_get. destruct (dget p (o_items o)); reflexivity.
  Qed.

  (** Whatever attributes and items a program has assigned, a name of a property that the class has as a descriptor or not at all reads
      the same as an attribute and as an item, and assigning it does the same in both ways. *)
  Theorem attribute_is_item : forall ops o k p s, o_private o = [] -> Means n k p s -> attr k = Some (CProp p) \/ (attr k = None /\ ~ Dunder k) ->
    let o' := fold_left (astep n) ops o in
    attr_get k o' = item_get k o' /\ forall v, attr_set k v o' = item_set k v o'.
  Proof.
    intros ops o k p s e m h o'. assert (so : Sound o') by (apply sound_run; intros k' i; rewrite e in i; destruct i). split.
    - rewrite (attr_means o' k p s so m h), (item_means k p s o' m). reflexivity.
    - intros v. unfold At_Model.attr_set, At_Model.item_set. rewrite (means_allowed k p s m). cbn [negb]. rewrite andb_false_r, (means_set k p s v _ m).
      destruct s; [|reflexivity]. destruct v; reflexivity.
  Qed.
  Lemma step_means o x p : (exists w, Assigns n x p w /\ dget p (o_items (astep n o x)) = Some w) \/
    ((forall w, ~ Assigns n x p w) /\ dget p (o_items (astep n o x)) = dget p (o_items o) \/ ~ In p (nm_props n)).
  Proof.
    destruct (in_dec (eq_dec (A := string)) p (nm_props n)) as [ip|]; [|auto].
    assert (core : forall k v, (exists w, ((Means n k p false /\ w = v) \/ (Means n k p true /\ Opposite v w)) /\
                       match alias_set n k v (o_items o) with Ok d => dget p d = Some w | Err _ => False end) \/
                     (forall w, ~ ((Means n k p false /\ w = v) \/ (Means n k p true /\ Opposite v w))) /\
                       match alias_set n k v (o_items o) with Ok d => dget p d = dget p (o_items o) | Err _ => True end).
    { intros k v. destruct (not_means k) as [(q & s & m)|h].
      - destruct (eq_dec q p) as [->|nq].
        + rewrite (means_set k p s v (o_items o) m). destruct s.
          * destruct (py_neg v) as [w|e] eqn:ev; cbn [rbind].
            -- left. exists w. split; [right; split; [exact m|apply py_neg_spec; exact ev]|apply dget_dset_same].
            -- right. split; [|exact I]. intros w [[m' _]|[_ op]].
               ++ destruct (means_raw k p true m) as [_ e1]. destruct (means_raw k p false m') as [_ e2]. congruence.
               ++ apply py_neg_spec in op. congruence.
          * cbn [rbind]. left. exists v. split; [left; auto|apply dget_dset_same].
        + right. assert (nm : forall s', ~ Means n k p s').
          { intros s' m'. destruct (means_raw k p s' m') as ((t & e1) & _). destruct (means_raw k q s m) as ((t' & e2) & _). congruence. }
          split; [intros w [[m' _]|[m' _]]; exact (nm _ m')|]. rewrite (means_set k q s v (o_items o) m).
          destruct (if s then py_neg v else Ok v) as [w|e]; cbn [rbind]; [|exact I]. apply dget_dset_other. congruence.
      - right. split; [intros w [[m' _]|[m' _]]; exact (h _ _ m')|]. rewrite (no_means_set k v (o_items o) h). destruct (nm_additional n); [|exact I].
        apply dget_dset_other. intros ->. exact (h _ _ (M_own n _ ip)). }
    unfold astep, Assigns. destruct x as [k v|k v].
    - unfold At_Model.attr_set. destruct (private k && negb (allowed n k)) eqn:ep.
      + right. left. split; [|reflexivity]. apply andb_prop in ep. destruct ep as [_ ep]. apply negb_true_iff in ep.
        intros w [[m _]|[m _]]; rewrite (means_allowed _ _ _ m) in ep; discriminate.
      + destruct (core k v) as [(w & a & h)|[na h]].
        * left. exists w. split; [exact a|]. destruct (alias_set n k v (o_items o)); [exact h|destruct h].
        * right. left. split; [exact na|]. destruct (alias_set n k v (o_items o)) as [d|[]]; try reflexivity. exact h.
    - unfold At_Model.item_set. destruct (core k v) as [(w & a & h)|[na h]].
      + left. exists w. split; [exact a|]. destruct (alias_set n k v (o_items o)); [exact h|destruct h].
      + right. left. split; [exact na|]. destruct (alias_set n k v (o_items o)) as [d|]; [exact h|reflexivity].
  Qed.
  (** A property has the value the last assignment gave it, as an attribute or as an item, under any of its names; no other assignment
      changes it. *)
  Theorem last_assignment : forall ops o p, In p (nm_props n) -> forall w,
    dget p (o_items (fold_left (astep n) ops o)) = Some w <->
    (exists pre x post, ops = pre ++ x :: post /\ Assigns n x p w /\ forall y v, In y post -> ~ Assigns n y p v) \/
    ((forall y v, In y ops -> ~ Assigns n y p v) /\ dget p (o_items o) = Some w).
  Proof.
    intros ops o p ip w. revert o. induction ops as [|x ops IH]; intros o; cbn [fold_left].
    - split; [intros e; right; split; [intros y v []|exact e]|]. intros [(pre & x & post & e & _)|[_ e]]; [destruct pre; discriminate|exact e].
    - rewrite IH. clear IH. split.
      + intros [(pre & y & post & -> & a & h)|[h e]]; [left; exists (x :: pre), y, post; auto|].
        destruct (step_means o x p) as [(w' & a & e')|[[na e']|]]; [| |contradiction].
        * left. exists [], x, ops. rewrite e' in e. injection e as <-. auto.
        * right. rewrite e' in e. split; [|exact e]. intros y v [<-|i]; [apply na|apply h; exact i].
      + intros [(pre & y & post & e & a & h)|[h e]].
        * destruct pre as [|z pre]; injection e as -> ->; [|left; exists pre, y, post; auto]. right. split; [exact h|].
          destruct (step_means o y p) as [(w' & a' & e')|[[na e']|]]; [| destruct (na w a)|contradiction].
          rewrite e'. f_equal. unfold Assigns in a, a'.
          assert (u : forall k v, (Means n k p false /\ w = v) \/ (Means n k p true /\ Opposite v w) -> (Means n k p false /\ w' = v) \/ (Means n k p true /\ Opposite v w') -> w' = w).
          { intros k v [[m1 ->]|[m1 o1]] [[m2 ->]|[m2 o2]]; try reflexivity.
            - destruct (means_raw _ _ _ m1) as [_ h1]. destruct (means_raw _ _ _ m2) as [_ h2]. congruence.
            - destruct (means_raw _ _ _ m1) as [_ h1]. destruct (means_raw _ _ _ m2) as [_ h2]. congruence.
            - apply py_neg_spec in o1. apply py_neg_spec in o2. congruence. }
          destruct y as [k v|k v]; exact (u k v a a').
        * right. split; [intros y v i; apply h; right; exact i|]. destruct (step_means o x p) as [(w' & a' & e')|[[na e']|]]; [|congruence|contradiction].
          destruct (h x w' (or_introl eq_refl) a').
  Qed.
  (** Reading an attribute of any name gives what is stored: for a negated alias, the opposite of what was assigned. *)
  Theorem negated_attribute_refuted : forall o a p z, o_private o = [] -> In (a, p) (nm_neg n) -> attr a = None -> ~ Dunder a ->
    exists o', attr_set a (VInt z) o = Ok o' /\ attr_get a o' = Ok (VInt (- z)).
  Proof.
    intros o a p z e i ea nd. pose proof (M_neg n a p i) as m. unfold At_Model.attr_set. rewrite (means_allowed a p true m). cbn [negb]. rewrite andb_false_r, (means_set a p true _ _ m).
    cbn [py_neg rbind]. eexists. split; [reflexivity|]. rewrite (attr_means _ a p true); [|intros k j; cbn [o_private] in j; rewrite e in j; destruct j|exact m|auto].
    cbn [o_items]. rewrite dget_dset_same. reflexivity.
  Qed.

  (** * names of no property *)
  Lemma no_means_get k o : (forall p s, ~ Means n k p s) -> nm_additional n = true -> item_get k o = match dget k (o_items o) with Some v => Ok v | None => Err KeyError end.
  Proof.
    intros h ad. destruct (no_means_raw k h) as (h1 & h2 & h3 & h4 & h5). unfold At_Model.item_get, alias_get.
    assert (gk : get_key n k = k) by (unfold get_key, or_self; rewrite h3, h2; reflexivity). rewrite gk. unfold alias_get_by, raw_trans. rewrite gk.
    rewrite (proj2 (mem_not_In _ _ _) h1), (find_trans n k h5), h2, h3, ad, (proj2 (mem_not_In _ _ _) h1).
    pose proof h3 as hn. apply dget_None in hn. apply dmem_false in hn. rewrite hn.
    destruct (dmem k (o_items o)) eqn:e; [destruct (dget k (o_items o)); reflexivity|]. apply dmem_false in e. apply dget_None in e. rewrite e. reflexivity.
  Qed.
  Lemma no_means_attr k o : Sound o -> (forall p s, ~ Means n k p s) -> attr k = None -> ~ Private k -> ~ In k orig ->
    attr_get k o = (if nm_additional n && dmem k (o_items o) then item_get k o
                    else match by_name with Some f => f k | None => if nm_additional n then if mem k required then Err AttributeError else Ok VNone else Err AttributeError end).
  Proof.
    intros so h ea np no. destruct (no_means_raw k h) as (h1 & h2 & h3 & h4 & h5). unfold At_Model.attr_get. rewrite ea.
    assert (ep : private k = false) by (destruct (private k) eqn:e; [apply private_spec in e; contradiction|reflexivity]).
    assert (el : dget k (o_private o) = None) by (apply dget_None; intros i; destruct (so k i); congruence).
    rewrite el. unfold getattr_. rewrite ep, (proj2 (mem_not_In _ _ _) no). cbn [orb andb].
    unfold or_self. rewrite h3, h2, h4, (proj2 (mem_not_In _ _ _) h1).
    apply dget_None in h3. apply dmem_false in h3. rewrite h3. unfold At_Model.item_get.
    destruct (nm_additional n && dmem k (o_items o)); [destruct (alias_get n k (o_items o)); reflexivity|].
    destruct by_name as [f|]; [destruct (f k); reflexivity|]. destruct (nm_additional n); reflexivity.
  Qed.
  (** With additional properties a name of no property can be assigned and is then read in both ways; one that has not been assigned gives
      None as an attribute and raises KeyError as an item, unless it is required. *)
  Theorem additional_attribute : forall ops o k, o_private o = [] -> (forall p s, ~ Means n k p s) -> nm_additional n = true -> attr k = None -> ~ Private k -> ~ In k orig ->
    by_name = None ->
    let o' := fold_left (astep n) ops o in
    (forall v, exists o2, attr_set k v o' = Ok o2 /\ item_set k v o' = Ok o2 /\ attr_get k o2 = Ok v /\ item_get k o2 = Ok v) /\
    (In k (dkeys (o_items o')) -> attr_get k o' = item_get k o') /\
    (~ In k (dkeys (o_items o')) -> item_get k o' = Err KeyError /\ attr_get k o' = if mem k required then Err AttributeError else Ok VNone).
  Proof.
    intros ops o k e h ad ea np no eb o'. assert (so : Sound o') by (apply sound_run; intros k' i; rewrite e in i; destruct i). split; [|split].
    - intros v. unfold At_Model.attr_set, At_Model.item_set. assert (ep : private k = false) by (destruct (private k) eqn:e'; [apply private_spec in e'; contradiction|reflexivity]).
      rewrite ep, (no_means_set k v _ h), ad. cbn [andb rbind]. eexists. split; [reflexivity|]. split; [reflexivity|].
      rewrite no_means_attr by (try assumption; exact so). cbn [o_items]. rewrite ad, (proj2 (dmem_In _ _)) by (apply In_dkeys_dset; left; reflexivity). cbn [andb].
      rewrite (no_means_get k _ h ad). cbn [o_items]. rewrite dget_dset_same. auto.
    - intros i. rewrite no_means_attr by assumption. rewrite ad, (proj2 (dmem_In _ _) i). reflexivity.
    - intros i. rewrite no_means_attr by assumption. rewrite (no_means_get k _ h ad), eb, ad, (proj2 (dmem_false _ _) i). cbn [andb].
      apply dget_None in i. rewrite i. auto.
  Qed.
  (** Without additional properties such a name raises, AttributeError as an attribute and KeyError as an item, when read and when assigned. *)
  Theorem undeclared_attribute : forall ops o k v, o_private o = [] -> (forall p s, ~ Means n k p s) -> nm_additional n = false -> attr k = None -> ~ Private k -> ~ In k orig ->
    by_name = None ->
    let o' := fold_left (astep n) ops o in
    attr_get k o' = Err AttributeError /\ item_get k o' = Err KeyError /\ attr_set k v o' = Err AttributeError /\ item_set k v o' = Err KeyError.
  Proof.
    intros ops o k v e h ad ea np no eb o'. assert (so : Sound o') by (apply sound_run; intros k' i; rewrite e in i; destruct i).
    assert (ep : private k = false) by (destruct (private k) eqn:e'; [apply private_spec in e'; contradiction|reflexivity]).
    rewrite no_means_attr by assumption. unfold At_Model.attr_set, At_Model.item_set. rewrite ep, (no_means_set k v _ h), ad, eb. cbn [andb rbind].
    repeat split. destruct (no_means_raw k h) as (h1 & h2 & h3 & h4 & h5). unfold At_Model.item_get, alias_get, get_key, or_self. rewrite h3, h2.
    unfold alias_get_by, raw_trans. rewrite (proj2 (mem_not_In _ _ _) h1), (find_trans n k h5), h2, h3, ad. reflexivity.
  Qed.
  (** A private name of no property is kept apart: it reads what it was assigned, and no item changes. *)
  Lemma no_means_allowed k : (forall p s, ~ Means n k p s) -> allowed n k = false.
  Proof.
    intros h. destruct (no_means_raw k h) as (h1 & h2 & h3 & h4 & h5). unfold allowed.
    apply dget_None, dmem_false in h2. apply dget_None, dmem_false in h3. apply dget_None, dmem_false in h4. rewrite h2, h3, h4, (proj2 (mem_not_In _ _ _) h1).
    assert (t : forall d : dict string string, (forall a p, In (a, p) d -> In p (nm_props n)) -> mem k (map snd d) = false).
    { intros d hd. apply mem_not_In. intros i. apply in_map_iff in i. destruct i as ([a p] & e & i). cbn in e. subst p. exact (h1 (hd a k i)). }
    rewrite !t; [reflexivity| |]; intros a p i; apply (ty_alias n ty a p); auto.
  Qed.
  Theorem private_attribute : forall o k v, Private k -> (forall p s, ~ Means n k p s) -> attr k = None ->
    exists o', attr_set k v o = Ok o' /\ attr_get k o' = Ok v /\ o_items o' = o_items o /\ forall k', k' <> k -> attr_get k' o' = attr_get k' o.
  Proof.
    intros o k v p nm ea. pose proof (no_means_allowed k nm) as al. apply private_spec in p. unfold At_Model.attr_set. rewrite p, al. cbn [negb andb]. eexists. split; [reflexivity|].
    unfold At_Model.attr_get. cbn [o_private o_items]. rewrite ea, dget_dset_same. split; [reflexivity|]. split; [reflexivity|].
    intros k' ne. unfold desc_get, getattr_, own_get, desc_get. cbn [o_items o_private]. rewrite !dget_dset_other by congruence. reflexivity.
  Qed.
  (** A private attribute, or one the classes define, which has not been given is missing; one with two underscores even if it
      names a property. *)
  Theorem missing_attribute : forall o k, (Private k \/ In k orig) -> (forall p s, ~ Means n k p s) \/ Dunder k -> attr k = None ->
    ~ In k (dkeys (o_private o)) -> attr_get k o = Err AttributeError.
  Proof.
    intros o k hp hm ea hn. unfold At_Model.attr_get. rewrite ea. apply dget_None in hn. rewrite hn. unfold At_Model.getattr_.
    assert (e1 : private k || mem k orig = true).
    { apply orb_true_iff. destruct hp as [h|h]; [left; apply private_spec; exact h|right; apply mem_In; exact h]. }
    assert (e2 : dunder k || negb (allowed n k) = true).
    { destruct hm as [h|[t ->]]; [rewrite (no_means_allowed k h), orb_true_r; reflexivity|reflexivity]. }
    rewrite e1, e2. cbn [andb]. unfold own_get. rewrite hn. reflexivity.
  Qed.
  (** A property whose attribute is something else (a method, an inner definition): assigning the attribute changes the property, reading it
      does not show the property. *)
  Theorem hidden_attribute_refuted : forall o p a v, In p (nm_props n) -> attr p = Some a -> (forall q, a <> CProp q) -> o_private o = [] ->
    exists o', attr_set p v o = Ok o' /\ item_get p o' = Ok v /\ attr_get p o' = attr_get p o.
  Proof.
    intros o p a v ip ea na e. pose proof (M_own n p ip) as m. unfold At_Model.attr_set. rewrite (means_allowed p p false m). cbn [negb]. rewrite andb_false_r, (means_set p p false _ _ m).
    cbn [rbind]. eexists. split; [reflexivity|]. rewrite (item_means p p false _ m). cbn [o_items]. rewrite dget_dset_same. split; [reflexivity|].
    unfold At_Model.attr_get. rewrite ea. cbn [o_private]. rewrite e. cbn [dget]. destruct a; [destruct (na p0 eq_refl)|reflexivity|reflexivity].
  Qed.
End Names.

(** * a case: a class with the properties name, my-size, amount and items over a base class with kind *)
Definition demo_clean (s : string) : string := if String.eqb s "my-size" then "my_size" else s.
Definition demo_base : klass := {| k_attrs := [("describe", true)]; k_defs := []; k_local := ["kind"] |}.
Definition demo_top : klass := {| k_attrs := [("name", true); ("helper", true)]; k_defs := ["Part"]; k_local := ["name"; "my-size"; "amount"; "items"] |}.
Definition demo_names : names := {| nm_props := ["name"; "my-size"; "amount"; "items"; "kind"]; nm_trans := [("my_size", "my-size")]; nm_alias := [("title", "name")];
  nm_neg := [("debt", "amount")]; nm_additional := true; nm_clean := demo_clean |}.
Definition demo_attr := class_attr ["items"; "keys"; "get"] (tables demo_clean ["items"; "keys"; "get"] [demo_top; demo_base]).
Example demo_tidy : Tidy demo_names.
Proof.
  constructor.
  - constructor; cbn; try (repeat constructor; cbn; intuition discriminate).
    + intros k [<-|[]] _. cbn. intuition discriminate.
    + intros k [<-|[]]. cbn. intuition discriminate.
    + intros k r h. assert (e : r = "my-size" \/ r = "name" \/ r = "amount") by (destruct h as [[h|[]]|[[h|[]]|[h|[]]]]; injection h as <- <-; auto).
      unfold other_name; cbn. intuition (subst; try discriminate).
    + intros k1 k2 r [e1|[]] [e2|[]]. congruence.
    + intros k1 k2 r [e1|[]] [e2|[]]. congruence.
    + intros k1 k2 r [e1|[]] [e2|[]]. congruence.
  - cbn. intros a p [[h|[]]|[h|[]]]; injection h as <- <-; intuition discriminate.
  - cbn. intros a p [h|[]]; injection h as <- <-; intuition discriminate.
Qed.
Example demo_unhidden : Unhidden demo_clean ["items"; "keys"; "get"] [demo_top] demo_base [] "kind" /\
  Unhidden demo_clean ["items"; "keys"; "get"] [] demo_top [demo_base] "my-size" /\ Unhidden demo_clean ["items"; "keys"; "get"] [] demo_top [demo_base] "name".
Proof.
  split; [|split]; constructor; cbn; try (intuition discriminate).
  - intros c h. intuition (subst; cbn in *; intuition discriminate).
  - intros q h e. intuition (subst; try discriminate; reflexivity).
  - intros c h. intuition (subst; cbn in *; intuition discriminate).
  - intros _ c h. intuition (subst; cbn in *; intuition discriminate).
  - intros c h. intuition (subst; cbn in *; intuition discriminate).
  - intros q h e. intuition (subst; try discriminate; reflexivity).
  - intros c h. intuition (subst; cbn in *; intuition discriminate).
  - intros c h. intuition (subst; cbn in *; intuition discriminate).
  - intros q h e. intuition (subst; try discriminate; reflexivity).
Qed.
Example demo_attributes : demo_attr "my_size" = Some (CProp "my-size") /\ demo_attr "name" = Some (CProp "name") /\ demo_attr "kind" = Some (CProp "kind") /\
  demo_attr "items" = Some (CFun "items") /\ demo_attr "helper" = Some (CFun "helper") /\ demo_attr "Part" = Some (CVal "Part") /\ demo_attr "title" = None.
Proof. repeat split. Qed.
Example demo_program :
  let o := fold_left (astep demo_names) [ASet "title" (VInt 1); ISet "my-size" (VInt 2); ASet "debt" (VInt 3); ASet "_x" (VInt 4); ASet "extra" (VInt 5)]
             {| o_items := [("name", VNone); ("my-size", VNone); ("amount", VNone); ("items", VNone); ("kind", VNone)]; o_private := [] |} in
  let get := fun k => attr_get demo_names demo_attr [] [] None (fun _ => VStr "method") k o in
  get "name" = Ok (VInt 1) /\ get "my_size" = Ok (VInt 2) /\ get "amount" = Ok (VInt (-3)) /\ get "debt" = Ok (VInt (-3)) /\ get "_x" = Ok (VInt 4) /\
  get "extra" = Ok (VInt 5) /\ get "other" = Ok VNone /\ get "items" = Ok (VStr "method") /\ item_get demo_names "other" o = Err KeyError.
Proof. repeat split. Qed.

(** a property of the class below named like a method, or like a value, of the class above *)
Definition demo_above : klass := {| k_attrs := [("run", true); ("level", false)]; k_defs := []; k_local := [] |}.
Definition demo_below : klass := {| k_attrs := []; k_defs := []; k_local := ["run"; "level"] |}.
Example demo_hiding : let attr := class_attr ["items"] (tables (fun x => x) ["items"] [demo_below; demo_above]) in
  attr "run" = Some (CFun "run") /\ attr "level" = Some (CProp "level").
Proof. split; reflexivity. Qed.
Example demo_method_above x : class_attr ["items"] (tables (fun x => x) ["items"] [demo_below; demo_above]) x <> Some (CProp "run").
Proof. apply (method_above_hides_refuted (fun x => x) ["items"] demo_below demo_above []); cbn; intuition discriminate. Qed.
Print Assumptions own_attribute_kept.
Print Assumptions method_above_hides_refuted.
Print Assumptions value_above_kept.
Print Assumptions property_attribute.
Print Assumptions method_lost_refuted.
Print Assumptions protocol_hides_refuted.
Print Assumptions definition_hides_refuted.
Print Assumptions attribute_is_item.
Print Assumptions last_assignment.
Print Assumptions negated_attribute_refuted.
Print Assumptions additional_attribute.
Print Assumptions undeclared_attribute.
Print Assumptions private_attribute.
Print Assumptions missing_attribute.
Print Assumptions hidden_attribute_refuted.
