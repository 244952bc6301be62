From Coq Require Import Lia.
From Verif Require Import Sct_Model Build_Model Build_Props Order_Spec Order_Proofs Order_Props Sct_Spec.
Local Open Scope string_scope.
Local Open Scope list_scope.

Lemma first_attr_ext {A} (f : kls -> option A) cs m l : (forall x, In x l -> x < length cs) -> first_attr f (cs ++ m) l = first_attr f cs l.
Proof.
  induction l as [|x l IH]; intros h; [reflexivity|]. cbn [first_attr]. rewrite nth_error_app1 by (apply h; left; reflexivity).
  rewrite IH; [reflexivity|]. intros y i. apply h. right. exact i.
Qed.
Lemma lin_ext cs m c : c < length cs -> lin (cs ++ m) c = lin cs c.
Proof. intros h. unfold lin. rewrite nth_error_app1 by exact h. reflexivity. Qed.

(** linearisations are well formed *)
Definition LinOk (cs : list kls) : Prop :=
  forall n k, nth_error cs n = Some k -> (exists l, k_lin k = n :: l) /\ NoDup (k_lin k) /\ forall x, In x (k_lin k) -> x < length cs.
Lemma linok_lin cs n : LinOk cs -> n < length cs -> (exists l, lin cs n = n :: l) /\ NoDup (lin cs n) /\ forall x, In x (lin cs n) -> x < length cs.
Proof.
  intros h l. unfold lin. destruct (nth_error cs n) as [k|] eqn:e; [exact (h n k e)|]. apply nth_error_None in e. lia.
Qed.
Lemma attr_ext {A} (f : kls -> option A) w w' m c : LinOk (t_classes w) -> t_classes w' = t_classes w ++ m -> c < length (t_classes w) ->
  attr f w' c = attr f w c.
Proof.
  intros h e l. unfold attr. rewrite e, lin_ext by exact l. apply first_attr_ext. apply (linok_lin _ _ h l).
Qed.
Lemma schema_ext w w' m c : LinOk (t_classes w) -> t_classes w' = t_classes w ++ m -> c < length (t_classes w) -> schema_of w' c = schema_of w c.
Proof. intros h e l. unfold schema_of. rewrite (attr_ext _ w w' m c h e l). reflexivity. Qed.

(** classes without the attribute may be put between the others *)
Lemma first_attr_sub {A} (f : kls -> option A) cs l1 l2 : Subseq l1 l2 -> NoDup l2 ->
  (forall x k, In x l2 -> ~ In x l1 -> nth_error cs x = Some k -> f k = None) -> first_attr f cs l2 = first_attr f cs l1.
Proof.
  intros h. induction h as [l|x s l h IH|x s l h IH]; intros nd hf.
  - cbn [first_attr]. induction l as [|x l IHl]; [reflexivity|]. cbn [first_attr]. inversion nd; subst.
    rewrite IHl; [|assumption|intros y k i; apply hf; right; exact i].
    destruct (nth_error cs x) as [k|] eqn:e; [|reflexivity]. rewrite (hf x k (or_introl eq_refl) (fun z => z) e). reflexivity.
  - cbn [first_attr]. inversion nd; subst. rewrite IH; [reflexivity|assumption|]. intros y k i ni e. apply (hf y k (or_intror i)); [|exact e].
    intros [->|j]; [contradiction|exact (ni j)].
  - cbn [first_attr]. inversion nd; subst. rewrite IH; [|assumption|intros y k i; apply hf; right; exact i].
    destruct (nth_error cs x) as [k|] eqn:e; [|reflexivity]. rewrite (hf x k (or_introl eq_refl)); [reflexivity| |exact e].
    intros j. apply (Subseq_In _ _ _ h) in j. contradiction.
Qed.
Lemma first_attr_none {A} (f : kls -> option A) cs l : (forall x k, In x l -> nth_error cs x = Some k -> f k = None) -> first_attr f cs l = None.
Proof.
  induction l as [|x l IH]; intros h; [reflexivity|]. cbn [first_attr]. rewrite IH by (intros y k i; apply h; right; exact i).
  destruct (nth_error cs x) as [k|] eqn:e; [|reflexivity]. rewrite (h x k (or_introl eq_refl) e). reflexivity.
Qed.

Section P.
  Variable docs : dict string sch.
  Variable type_ enum_ : nat.
  Variable accepts : sch -> bool.
  Variable underscore : string -> string.
  Variable w0 : tw.
  Hypothesis start : Start docs type_ enum_ w0.
  Hypothesis plain : Plain docs underscore.
  Notation b := (length (t_classes w0)).
  Notation L := (load docs type_ enum_ accepts underscore).

  Definition Describes (w : tw) (id : string) (t : tobj) : Prop :=
    (forall k v, k <> "type" -> keyword w t k = Some v -> Given docs id k v) /\
    (forall k v, Given docs id k v -> keyword w t k = Some v) /\
    (forall v, class_default w t = Some v <-> DefaultOf docs id v) /\
    exists id', Stands docs id id' /\ match t with TClass _ => Refines docs id' | TInst _ => ~ Refines docs id' end.
  Record Inv (w : tw) : Prop := {
    i_classes : exists l, t_classes w = t_classes w0 ++ l;
    i_types : t_types w = t_types w0;
    i_lin : LinOk (t_classes w);
    i_reg : forall id t, dmem id docs = true -> dget id (t_reg w) = Some t -> class_of t < length (t_classes w) /\ Describes w id t
  }.
  Lemma describes_ext w w' m id t : LinOk (t_classes w) -> t_classes w' = t_classes w ++ m -> class_of t < length (t_classes w) ->
    Describes w id t -> Describes w' id t.
  Proof.
    intros h e l (d1 & d2 & d3 & d4). unfold Describes, keyword, class_default. rewrite (schema_ext _ _ _ _ h e l), (attr_ext _ _ _ _ _ h e l).
    repeat split; auto; apply d3.
  Qed.
  Lemma builtin_lt w : Inv w -> b <= length (t_classes w).
  Proof. intros i. destruct (i_classes _ i) as (l & e). rewrite e, app_length. lia. Qed.
  Lemma builtin_schema w c k : Inv w -> c < b -> k <> "type" -> dget k (schema_of w c) = None.
  Proof.
    intros i l ne. destruct (i_classes _ i) as (m & e). rewrite (schema_ext w0 w m c (st_lin _ _ _ _ start) e l). apply (st_schema _ _ _ _ start); assumption.
  Qed.
  Lemma builtin_lin w c : Inv w -> c < b -> forall x, In x (lin (t_classes w) c) -> x < b.
  Proof.
    intros i l. destruct (i_classes _ i) as (m & e). rewrite e, lin_ext by exact l. apply (linok_lin _ _ (st_lin _ _ _ _ start) l).
  Qed.
  Lemma builtin_default w x k : Inv w -> x < b -> nth_error (t_classes w) x = Some k -> k_default k = None.
  Proof.
    intros i l h. destruct (i_classes _ i) as (m & e). rewrite e, nth_error_app1 in h by exact l. exact (st_default _ _ _ _ start _ _ h).
  Qed.

  Lemma named_builtin s w l : Inv w -> named_type s w = Ok l -> forall c, In c l -> c < b.
  Proof.
    intros i h c j. unfold named_type in h. rewrite (i_types _ i) in h. destruct (dget "type" s) as [[]|]; try discriminate.
    - destruct (dget _ (t_types w0)) as [c'|] eqn:e; [|discriminate]. injection h as <-. destruct j as [<-|[]]. exact (st_types _ _ _ _ start _ _ e).
    - injection h as <-. destruct j.
  Qed.

  Lemma class_made s bases w c w1 : Inv w -> (bases = [] \/ exists c0, bases = [c0] /\ c0 < length (t_classes w)) ->
    scalar_class type_ enum_ s bases [] w = (Ok c, w1) ->
    c = length (t_classes w) /\ (exists k, w1 = add_class k w) /\ LinOk (t_classes w1) /\
    (forall k v, dget k s = Some v -> dget k (schema_of w1 c) = Some v) /\
    (forall k v c0, dget k s = None -> bases = [c0] -> dget k (schema_of w c0) = Some v -> dget k (schema_of w1 c) = Some v) /\
    (forall k v, k <> "type" -> dget k (schema_of w1 c) = Some v ->
       dget k s = Some v \/ exists c0, bases = [c0] /\ dget k s = None /\ dget k (schema_of w c0) = Some v) /\
    attr k_default w1 c = match dget "default" (schema_of w1 c) with
                          | Some v => Some v
                          | None => match enum_of s with
                                    | v :: _ => Some v
                                    | [] => match bases with c0 :: _ => attr k_default w c0 | [] => None end
                                    end
                          end.
  Proof.
    intros i hb h. unfold scalar_class in h. destruct (named_type s w) as [tys|] eqn:et; [|discriminate]. cbn [existsb map app] in h.
    pose proof (named_builtin s w tys i et) as hty.
    set (ex := extra_bases type_ (t_classes w) bases ((if dmem "enum" s then [enum_] else []) ++ tys)) in *.
    assert (hex : forall x, In x ex -> x < b).
    { intros x j. unfold ex, extra_bases in j. destruct (st_known _ _ _ _ start) as (kt & ke).
      assert (jj : x = type_ \/ In x ((if dmem "enum" s then [enum_] else []) ++ tys)).
      { destruct bases as [|c0 bs].
        - destruct (filter _ _) as [|y l] eqn:ef in j; [left; destruct j as [<-|[]]; reflexivity|]. right. rewrite <- ef in j. apply filter_In in j. tauto.
        - right. apply filter_In in j. tauto. }
      destruct jj as [->|jj]; [exact kt|]. apply in_app_or in jj. destruct jj as [jj|jj]; [|exact (hty x jj)].
      destruct (dmem "enum" s); [|destruct jj]. destruct jj as [<-|[]]. exact ke. }
    destruct (mro (lin (t_classes w)) (bases ++ ex)) as [l|] eqn:em; [|discriminate]. injection h as hc hw.
    destruct (mro_is_c3_linearisation _ _ _ _ _ em) as (_ & nd & hin & _ & hsub).
    assert (hl : forall x, In x l -> x < length (t_classes w)).
    { intros x j. apply hin in j. pose proof (builtin_lt w i) as bl.
      assert (hall : forall y, In y (bases ++ ex) -> y < length (t_classes w)).
      { intros y q. apply in_app_or in q. destruct q as [q|q]; [|apply hex in q; lia]. destruct hb as [->|(c0 & -> & lt)]; [destruct q|]. destruct q as [<-|[]]. exact lt. }
      destruct j as [j|(y & j & j')]; [exact (hall x j)|]. apply (linok_lin _ y (i_lin _ i)); [exact (hall y j)|exact j']. }
    set (kn := {| k_lin := length (t_classes w) :: l; k_schema := _; k_default := _; k_init := None |}) in hw.
    assert (ec : t_classes w1 = t_classes w ++ [kn]) by (rewrite <- hw; reflexivity).
    assert (en : nth_error (t_classes w1) c = Some kn) by (rewrite ec, <- hc, nth_error_app2, Nat.sub_diag by lia; reflexivity).
    assert (el : lin (t_classes w1) c = c :: l) by (unfold lin; rewrite en, <- hc; reflexivity).
    assert (es : schema_of w1 c = chain s (map (schema_of w) (bases ++ ex))).
    { unfold schema_of at 1, attr. rewrite el. cbn [first_attr]. rewrite en. reflexivity. }
    assert (hsx : forall k, k <> "type" -> find (fun m => dmem k m) (map (schema_of w) ex) = None).
    { intros k ne. destruct (find _ _) as [m|] eqn:ef; [|reflexivity]. apply find_some in ef. destruct ef as (j & d). apply in_map_iff in j.
      destruct j as (x & <- & j). apply dmem_get in d || (unfold dmem in d). rewrite (builtin_schema w x k i (hex x j) ne) in d. discriminate. }
    split; [auto|]. split; [exists kn; rewrite <- hw; reflexivity|]. split.
    { intros n k e. rewrite ec in e. destruct (Nat.lt_ge_cases n (length (t_classes w))) as [lt|ge].
      - rewrite nth_error_app1 in e by exact lt. destruct (i_lin _ i n k e) as (p & q & r). split; [exact p|]. split; [exact q|].
        intros x j. rewrite ec, app_length. cbn. specialize (r x j). lia.
      - rewrite nth_error_app2 in e by exact ge. destruct (n - length (t_classes w)) as [|m] eqn:em'; [|destruct m; discriminate]. injection e as <-.
        assert (n = length (t_classes w)) by lia. subst n. split; [exists l; reflexivity|]. split.
        + constructor; [|exact nd]. intros j. apply hl in j. lia.
        + intros x [<-|j]; rewrite ec, app_length; cbn; [lia|]. specialize (hl x j). lia. }
    rewrite es. split; [|split; [|split]].
    - intros k v h. rewrite chain_get. cbn [find]. unfold dmem at 1. rewrite h. exact h.
    - intros k v c0 h -> h'. rewrite chain_get. cbn [find map app]. unfold dmem at 1. rewrite h. unfold dmem at 1. rewrite h'. exact h'.
    - intros k v ne h. rewrite chain_get in h. cbn [find] in h. unfold dmem at 1 in h. destruct (dget k s) as [x|] eqn:e; [left; rewrite e in h; exact h|]. right.
      rewrite map_app in h. destruct hb as [->|(c0 & -> & lt)]; cbn [map app find] in h; [rewrite (hsx k ne) in h; discriminate|].
      unfold dmem at 1 in h. destruct (dget k (schema_of w c0)) as [x|] eqn:e0; [|rewrite (hsx k ne) in h; discriminate].
      exists c0. rewrite e0 in h. injection h as <-. auto.
    - unfold attr at 1. rewrite el. cbn [first_attr]. rewrite en. cbn [k_default kn].
      destruct (dget "default" (chain s _)); [reflexivity|]. destruct (enum_of s) as [|v vs]; [|reflexivity].
      assert (eq : first_attr k_default (t_classes w1) l = first_attr k_default (t_classes w) l) by (rewrite ec; apply first_attr_ext; exact hl).
      rewrite eq. destruct hb as [->|(c0 & -> & lt)].
      + apply first_attr_none. intros x k j e. apply hin in j. cbn [app] in j. apply (builtin_default w x k i); [|exact e].
        destruct j as [j|(y & j & j')]; [exact (hex x j)|]. exact (builtin_lin w y i (hex y j) x j').
      + unfold attr. apply first_attr_sub; [apply hsub; left; reflexivity|exact nd|]. intros x k j nj e. apply hin in j. apply (builtin_default w x k i); [|exact e].
        destruct j as [[<-|j]|(y & [<-|j] & j')]; [|exact (hex x j)|contradiction|exact (builtin_lin w y i (hex y j) x j')].
        exfalso. apply nj. destruct (linok_lin _ c0 (i_lin _ i) lt) as ((l' & e') & _). rewrite e'. left. reflexivity.
  Qed.

  Lemma enum_of_cons s v l : enum_of s = v :: l <-> dget "enum" s = Some (VList (v :: l)).
  Proof.
    unfold enum_of. destruct (dget "enum" s) as [[]|]; split; intros h; try discriminate; congruence.
  Qed.
  Lemma enum_of_nil s : enum_of s = [] <-> forall v l, dget "enum" s <> Some (VList (v :: l)).
  Proof.
    split; [intros h v l e; apply enum_of_cons in e; congruence|]. intros h. destruct (enum_of s) as [|v l] eqn:e; [reflexivity|].
    apply enum_of_cons in e. destruct (h _ _ e).
  Qed.
  Lemma default_fun id v v' : (forall k x y, Given docs id k x -> Given docs id k y -> x = y) -> Given docs id "default" v -> DefaultOf docs id v' -> v' = v.
  Proof. intros gf g d. inversion d as [? ? g'|? ? ? ? nd|? ? ? ? nd]; subst; [exact (gf _ _ _ g' g)|destruct (nd _ g)|destruct (nd _ g)]. Qed.

  Lemma made_plain id s w c w1 : Inv w -> dget id docs = Some s -> dget "$ref" s = None -> scalar_class type_ enum_ s [] [] w = (Ok c, w1) ->
    Describes w1 id (TInst c).
  Proof.
    intros i hd hr h. destruct (class_made s [] w c w1 i (or_introl eq_refl) h) as (_ & _ & _ & a & _ & k3 & df).
    assert (g1 : forall k v, Given docs id k v -> dget k s = Some v).
    { intros k v g. inversion g; subst; [congruence|]. congruence. }
    assert (g2 : forall k v, dget k s = Some v -> Given docs id k v).
    { intros k v e. eapply given_here; [exact hd| |exact e]. intros ->. congruence. }
    assert (k4 : forall k v, k <> "type" -> dget k (schema_of w1 c) = Some v -> dget k s = Some v).
    { intros k v ne e. destruct (k3 k v ne e) as [e'|(c0 & e' & _)]; [exact e'|discriminate]. }
    split; [|split; [|split]].
    - intros k v ne e. apply g2. exact (k4 k v ne e).
    - intros k v g. apply a. apply g1. exact g.
    - intros v. unfold class_default. cbn [class_of]. rewrite df. destruct (dget "default" (schema_of w1 c)) as [x|] eqn:ed.
      + apply k4 in ed; [|discriminate]. split.
        * intros e. injection e as <-. apply default_given, g2, ed.
        * intros d. f_equal. symmetry. eapply default_fun; [|apply g2; exact ed|exact d]. intros k p q gp gq. apply g1 in gp, gq. congruence.
      + assert (nd : NoDefault docs id).
        { intros v' g. apply g1 in g. rewrite (a _ _ g) in ed. discriminate. }
        destruct (enum_of s) as [|y l] eqn:ee.
        * split; [discriminate|]. intros d. inversion d as [? ? g|? s' ? ? _ e1 e2|? s' ? ? _ e1 _ e3]; subst; [destruct (nd _ g)| |].
          -- assert (s' = s) as -> by congruence. apply enum_of_cons in e2. congruence.
          -- assert (s' = s) as -> by congruence. congruence.
        * pose proof (proj1 (enum_of_cons s y l) ee) as e1. split.
          -- intros e. injection e as <-. exact (default_first docs id s y l nd hd e1).
          -- intros d. inversion d as [? ? g|? s' ? ? _ e2 e3|? s' ? ? _ e2 e3]; subst; [destruct (nd _ g)| |].
             ++ assert (s' = s) as -> by congruence. congruence.
             ++ assert (s' = s) as -> by congruence. destruct (e3 _ _ e1).
    - exists id. split; [eapply stands_here; eauto|]. intros (s' & r & e1 & e2 & _). congruence.
  Qed.
  Lemma made_refined id s r t w c w1 : Inv w -> dget id docs = Some s -> dwf s -> dget "$ref" s = Some (VStr r) -> ddel "$ref" s <> [] ->
    class_of t < length (t_classes w) -> Describes w r t -> scalar_class type_ enum_ (ddel "$ref" s) [class_of t] [] w = (Ok c, w1) ->
    Describes w1 id (TClass c).
  Proof.
    intros i hd wf hr hne lt (d1 & d2 & d3 & _) h.
    destruct (class_made _ [class_of t] w c w1 i (or_intror (ex_intro _ _ (conj eq_refl lt))) h) as (_ & _ & _ & a & a' & k3 & df).
    assert (rk : forall k, k <> "$ref" -> dget k (ddel "$ref" s) = dget k s).
    { intros k ne. rewrite dget_ddel by exact wf. destruct (eq_dec k "$ref"); [contradiction|reflexivity]. }
    assert (rr : dget "$ref" (ddel "$ref" s) = None).
    { rewrite dget_ddel by exact wf. destruct (eq_dec "$ref" "$ref"); [reflexivity|contradiction]. }
    assert (nr : forall k v, Given docs r k v -> k <> "$ref").
    { intros k v g. clear -g. induction g; [assumption|exact IHg]. }
    assert (g1 : forall k v, Given docs id k v -> dget k s = Some v /\ k <> "$ref" \/ dget k s = None /\ Given docs r k v).
    { intros k v g. inversion g; subst; [left; split; congruence|]. right. split; [congruence|]. congruence. }
    assert (gk : forall k v, Given docs id k v -> dget k (schema_of w1 c) = Some v).
    { intros k v g. apply g1 in g. destruct g as [(e & ne)|(e & g)].
      - apply a. rewrite rk by exact ne. exact e.
      - eapply a'; [rewrite rk by exact (nr _ _ g); exact e|reflexivity|]. exact (d2 _ _ g). }
    assert (kg : forall k v, k <> "type" -> dget k (schema_of w1 c) = Some v -> Given docs id k v).
    { intros k v ne e. destruct (k3 k v ne e) as [e'|(c0 & e0 & e1 & e2)].
      - eapply given_here; [exact hd| |]. { intros ->. congruence. } rewrite <- e'. symmetry. apply rk. intros ->. congruence.
      - injection e0 as <-. pose proof (d1 k v ne e2) as g. eapply given_there; [exact hd| |exact hr|exact g]. rewrite <- e1. symmetry. apply rk. exact (nr _ _ g). }
    assert (ee : enum_of (ddel "$ref" s) = enum_of s) by (unfold enum_of; rewrite rk by discriminate; reflexivity).
    split; [exact kg|]. split; [exact gk|]. split.
    - intros v. unfold class_default. cbn [class_of]. rewrite df, ee. destruct (dget "default" (schema_of w1 c)) as [x|] eqn:ed.
      + pose proof (kg "default" x ltac:(discriminate) ed) as gx. split.
        * intros e. injection e as <-. apply default_given, gx.
        * intros d. f_equal. symmetry. eapply default_fun; [|exact gx|exact d]. intros k p q gp gq. apply gk in gp, gq. congruence.
      + assert (nd : NoDefault docs id).
        { intros v' g. rewrite (gk _ _ g) in ed. discriminate. }
        destruct (enum_of s) as [|y l] eqn:ee'.
        * pose proof (proj1 (enum_of_nil s) ee') as en. fold (class_default w t). rewrite d3. split.
          -- intros d. exact (default_there docs id s r v nd hd en hr d).
          -- intros d. inversion d as [? ? g|? s' ? ? _ e1 e2|? s' r' ? _ e1 _ e3 d']; subst; [destruct (nd _ g)| |].
             ++ assert (s' = s) as -> by congruence. destruct (en _ _ e2).
             ++ assert (s' = s) as -> by congruence. assert (r' = r) as -> by congruence. exact d'.
        * pose proof (proj1 (enum_of_cons s y l) ee') as e1. split.
          -- intros e. injection e as <-. exact (default_first docs id s y l nd hd e1).
          -- intros d. inversion d as [? ? g|? s' ? ? _ e2 e3|? s' ? ? _ e2 e3]; subst; [destruct (nd _ g)| |].
             ++ assert (s' = s) as -> by congruence. congruence.
             ++ assert (s' = s) as -> by congruence. destruct (e3 _ _ e1).
    - exists id. split; [eapply stands_here; eauto|]. exists s, r. auto.
  Qed.
  Lemma same_refined id s r t w : dget id docs = Some s -> dwf s -> dget "$ref" s = Some (VStr r) -> ddel "$ref" s = [] -> Describes w r t -> Describes w id t.
  Proof.
    intros hd wf hr he (d1 & d2 & d3 & id' & d4 & d5).
    assert (only : forall k, k <> "$ref" -> dget k s = None).
    { intros k ne. assert (e : dget k (ddel "$ref" s) = None) by (rewrite he; reflexivity). rewrite dget_ddel in e by exact wf. destruct (eq_dec k "$ref"); [contradiction|exact e]. }
    assert (g : forall k v, Given docs id k v <-> Given docs r k v).
    { intros k v. split; intros g.
      - inversion g as [? s' ? ? e1 ne e2|? s' r' ? ? e1 e2 e3 g']; subst; [|assert (r' = r) as <- by congruence; exact g'].
        assert (s' = s) as -> by congruence. rewrite (only k ne) in e2. discriminate.
      - eapply given_there; [exact hd| |exact hr|exact g]. apply only. clear -g. induction g; [assumption|exact IHg]. }
    split; [intros k v ne e; apply g; exact (d1 k v ne e)|]. split; [intros k v e; apply d2, g, e|]. split.
    - intros v. rewrite d3. split; intros d.
      + inversion d as [? ? gg|? s' ? l nd e1 e2|? s' r' ? nd e1 e2 e3 d']; subst.
        * apply default_given, g, gg.
        * eapply default_there; [|exact hd| |exact hr|exact d]; [intros x gx; apply g in gx; exact (nd x gx)|]. intros x l' e. rewrite only in e by discriminate. discriminate.
        * eapply default_there; [|exact hd| |exact hr|exact d]; [intros x gx; apply g in gx; exact (nd x gx)|]. intros x l' e. rewrite only in e by discriminate. discriminate.
      + inversion d as [? ? gg|? s' ? l nd e1 e2|? s' r' ? nd e1 e2 e3 d']; subst.
        * apply default_given, g, gg.
        * assert (s' = s) as -> by congruence. rewrite only in e2 by discriminate. discriminate.
        * assert (s' = s) as -> by congruence. assert (r' = r) as <- by congruence. exact d'.
    - exists id'. split; [|exact d5]. eapply stands_there; eauto.
  Qed.

  (** [w'] comes after [w] *)
  Definition After (w w' : tw) : Prop :=
    (exists m, t_classes w' = t_classes w ++ m) /\ (forall id t, dmem id docs = true -> dget id (t_reg w) = Some t -> dget id (t_reg w') = Some t).
  Lemma after_refl w : After w w.
  Proof. split; [exists []; rewrite app_nil_r; reflexivity|auto]. Qed.
  Lemma after_trans w w1 w2 : After w w1 -> After w1 w2 -> After w w2.
  Proof. intros ((m & e) & a) ((m' & e') & a'). split; [exists (m ++ m'); rewrite e', e, app_assoc; reflexivity|auto]. Qed.
  Lemma inv_class k w : Inv w -> LinOk (t_classes (add_class k w)) -> Inv (add_class k w).
  Proof.
    intros [(l & e) t ln r] lo. constructor; [cbn; rewrite e; exists (l ++ [k]); apply eq_sym, app_assoc|exact t|exact lo|].
    intros id x d g. destruct (r id x d g) as (lt & ds). split; [cbn; rewrite app_length; lia|].
    exact (describes_ext w (add_class k w) [k] id x ln eq_refl lt ds).
  Qed.
  Lemma inv_register id t w : Inv w -> (dmem id docs = true -> class_of t < length (t_classes w) /\ Describes w id t) -> Inv (register id t w).
  Proof.
    intros [c ty ln r] h. constructor; auto. intros id' x d g. cbn [register t_reg] in g. rewrite dget_dset in g. destruct (eq_dec id' id) as [->|ne].
    - injection g as <-. exact (h d).
    - exact (r id' x d g).
  Qed.
  Lemma after_register id t w w1 : After w w1 -> dget id (t_reg w) = None \/ dmem id docs = false -> After w (register id t w1).
  Proof.
    intros ((m & e) & a) h. split; [exists m; exact e|]. intros id' x d g. cbn [register t_reg]. rewrite dget_dset.
    destruct (eq_dec id' id) as [->|ne]; [|exact (a id' x d g)]. destruct h as [h|h]; congruence.
  Qed.
  Lemma after_class k w w1 : After w w1 -> After w (add_class k w1).
  Proof. intros ((m & e) & a). split; [|exact a]. exists (m ++ [k]). cbn. rewrite e. apply eq_sym, app_assoc. Qed.

  Lemma load_inv : forall n id w t w', Inv w -> dmem id docs = true -> L n id w = (Ok t, w') ->
    Inv w' /\ After w w' /\ dget id (t_reg w') = Some t /\ class_of t < length (t_classes w') /\ Describes w' id t.
  Proof.
    induction n as [|n IH]; intros id w t w' i hm h; cbn [load] in h; [discriminate|].
    destruct (dget id (t_reg w)) as [t0|] eqn:er.
    { injection h as -> ->. destruct (i_reg _ i id t hm er) as (lt & d). split; [exact i|]. split; [apply after_refl|]. auto. }
    destruct (dget id docs) as [s|] eqn:hd; [|discriminate]. destruct plain as (pe & pr & pu). destruct (pe id s hd) as (he & wf).
    unfold build_with in h. destruct (dget "$ref" s) as [rv|] eqn:hr.
    - destruct rv as [| | |r| | | |]; try discriminate. destruct (L n r w) as [[tr|e] w1] eqn:hl; [|discriminate].
      destruct (IH r w tr w1 i (pr id s r hd hr) hl) as (i1 & af & gr & lt & ds).
      destruct (ddel "$ref" s) as [|kv rest] eqn:hx.
      + injection h as <- <-. pose proof (same_refined id s r tr w1 hd wf hr hx ds) as di.
        split; [apply inv_register; auto|]. split; [apply after_register; auto|].
        split; [cbn; apply dget_dset_same|]. auto.
      + rewrite <- hx in h. destruct (dmem "id" _ || dmem "cls" _); [discriminate|].
        assert (ex : extends_of (ddel "$ref" s) = []).
        { unfold extends_of. rewrite dget_ddel. destruct (eq_dec "extends" "$ref") as [q|_]; [discriminate|]. rewrite he. reflexivity. }
        rewrite ex in h. cbn [load_all] in h.
        destruct (scalar_class type_ enum_ (ddel "$ref" s) [class_of tr] [] w1) as [[c|e] w2] eqn:hs; [|discriminate]. injection h as <- <-.
        pose proof (made_refined id s r tr w1 c w2 i1 hd wf hr ltac:(rewrite hx; discriminate) lt ds hs) as dc.
        destruct (class_made _ [class_of tr] w1 c w2 i1 (or_intror (ex_intro _ _ (conj eq_refl lt))) hs) as (ec & (k & ->) & lo & _).
        assert (ltc : c < length (t_classes (add_class k w1))) by (cbn; rewrite app_length; cbn; lia).
        pose proof (inv_class k w1 i1 lo) as i2.
        assert (i3 : Inv (register (underscore id) (TClass c) (add_class k w1))).
        { apply inv_register; [exact i2|]. intros du. rewrite (pu id hm du). auto. }
        split; [apply inv_register; auto|]. split; [|split; [cbn; apply dget_dset_same|auto]].
        apply after_register; [|auto]. apply after_register; [apply after_class; exact af|].
        destruct (dmem (underscore id) docs) eqn:du; [|auto]. left. rewrite (pu id hm du). exact er.
    - assert (ex : extends_of s = []) by (unfold extends_of; rewrite he; reflexivity). rewrite ex in h. cbn [load_all] in h.
      destruct (scalar_class type_ enum_ s [] [] w) as [[c|e] w2] eqn:hs; [|discriminate]. destruct (accepts _); [|discriminate]. injection h as <- <-.
      pose proof (made_plain id s w c w2 i hd hr hs) as dc.
      destruct (class_made _ [] w c w2 i (or_introl eq_refl) hs) as (ec & (k & ->) & lo & _).
      assert (ltc : c < length (t_classes (add_class k w))) by (cbn; rewrite app_length; cbn; lia).
      pose proof (inv_class k w i lo) as i2.
      split; [apply inv_register; auto|]. split; [apply after_register; [apply after_class, after_refl|auto]|]. split; [cbn; apply dget_dset_same|auto].
  Qed.
  Lemma inv_start : Inv w0.
  Proof.
    constructor; [exists []; rewrite app_nil_r; reflexivity|reflexivity|exact (st_lin _ _ _ _ start)|].
    intros id t d g. rewrite (st_reg _ _ _ _ start id d) in g. discriminate.
  Qed.
End P.
