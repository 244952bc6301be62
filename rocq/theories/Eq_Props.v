(** C68: equality of objects and arrays *)
From Coq Require Import Lia.
From Verif Require Import Cmp_Spec Cmp_Proofs Eq_Model Eq_Spec.

Lemma part_trans p q x : Part p q -> Part q x -> Part p x.
Proof. intros h h2. induction h2; [exact h|eapply part_list|eapply part_map|eapply part_obj|eapply part_arr]; eauto. Qed.
Lemma world_part h x p : World h x -> Part p x -> World h p.
Proof. intros [w1 w2 w3] hp. split; intros; [eapply w1|eapply w2|eapply w3]; eauto using part_trans. Qed.
Lemma prim_refl v : match v with VList _ | VTup _ | VDict _ => False | _ => True end -> PyEq v v.
Proof. destruct v as [|[]| | | | | |]; intros []; econstructor; constructor. Qed.
Lemma prim_sym v w : match v with VList _ | VTup _ | VDict _ => False | _ => True end -> PyEq v w -> PyEq w v.
Proof. intros hv h. inversion h; subst; try contradiction; econstructor; eassumption. Qed.
Lemma prim_trans u v w : match u with VList _ | VTup _ | VDict _ => False | _ => True end -> PyEq u v -> PyEq v w -> PyEq u w.
Proof.
  intros hu h1 h2. inversion h1 as [|a b z n1 n2| | | | |]; subst; try contradiction; try exact h2.
  inversion h2 as [|a' b' z' n3 n4| | | | |]; subst; try (inversion n2; fail). rewrite (Num_fun _ _ _ n2 n3) in n1. econstructor; eassumption.
Qed.
Lemma world_list h l x : World h (IList l) -> In x l -> World h x.
Proof. intros w i. eapply world_part; [exact w|]. eapply part_list; [exact i|constructor]. Qed.
Lemma world_arr h j c l x : World h (IArr j c l) -> In x l -> World h x.
Proof. intros w i. eapply world_part; [exact w|]. eapply part_arr; [exact i|constructor]. Qed.
Lemma world_map h l k x : World h (IMap l) -> In (k, x) l -> World h x.
Proof. intros w i. eapply world_part; [exact w|]. eapply part_map; [exact i|constructor]. Qed.
Lemma world_same h x y : World h x -> World h y -> same_instance x y = true -> x = y.
Proof.
  intros wx wy e. unfold same_instance in e. destruct (id_of x) as [i|] eqn:ex; [|discriminate]. destruct (id_of y) as [j|] eqn:ey; [|discriminate].
  apply Nat.eqb_eq in e. subst j. pose proof (w_instance _ _ wx x i ltac:(constructor) ex). pose proof (w_instance _ _ wy y i ltac:(constructor) ey). congruence.
Qed.
Lemma depth_list l x n : In x l -> S (fold_right Nat.max 0 (map depth l)) <= S n -> depth x <= n.
Proof. induction l as [|y l IH]; [intros []|]; intros [<-|i] h; cbn [map fold_right] in h; [lia|]. apply IH; [exact i|lia]. Qed.
Lemma depth_map (l : list (string * iv)) k x n : In (k, x) l -> S (fold_right Nat.max 0 (map (fun kv => depth (snd kv)) l)) <= S n -> depth x <= n.
Proof. induction l as [|y l IH]; [intros []|]; intros [e|i] h; cbn [map fold_right] in h; [subst y; cbn in h; lia|]. apply IH; [exact i|lia]. Qed.
Lemma depth_pos x : 1 <= depth x.
Proof. destruct x; cbn [depth]; lia. Qed.

Lemma F2_len {A B} (R : A -> B -> Prop) l m : Forall2 R l m -> length l = length m.
Proof. induction 1; cbn [length]; congruence. Qed.

Section Main.
  Variable sub : nat -> nat -> bool.
  Hypothesis order : Order sub.
  Variable h : nat -> option iv.

  Lemma all_eq_spec rec xs : forall ys, length xs = length ys ->
    (forall x y, In x xs -> In y ys -> exists b, rec x y = Ok b /\ (b = true <-> Same x y)) ->
    exists b, all_eq rec xs ys = Ok b /\ (b = true <-> Forall2 Same xs ys).
  Proof.
    induction xs as [|x xs IH]; intros [|y ys] e hr; cbn [length] in e; try discriminate; cbn [all_eq].
    - exists true. split; [reflexivity|]. split; [constructor|reflexivity].
    - destruct (hr x y (or_introl eq_refl) (or_introl eq_refl)) as (b & -> & hb). cbn [rbind]. destruct b.
      + destruct (IH ys) as (b & -> & hb2); [congruence|intros; apply hr; right; assumption|]. exists b. split; [reflexivity|]. rewrite hb2. split.
        * intros f. constructor; [apply hb; reflexivity|exact f].
        * intros f. inversion f; subst. assumption.
      + exists false. split; [reflexivity|]. split; [discriminate|]. intros f. inversion f; subst. apply hb. assumption.
  Qed.
  Lemma map_eq_spec rec xs ys : 
    (forall k x y, In (k, x) xs -> In (k, y) ys -> exists b, rec x y = Ok b /\ (b = true <-> Same x y)) ->
    exists b, map_eq rec xs ys = Ok b /\ (b = true <-> forall k x, In (k, x) xs -> exists y, dget k ys = Some y /\ Same x y).
  Proof.
    induction xs as [|[k x] xs IH]; intros hr; cbn [map_eq].
    - exists true. split; [reflexivity|]. split; [intros _ ? ? []|reflexivity].
    - destruct (dget k ys) as [y|] eqn:ek.
      + destruct (hr k x y (or_introl eq_refl) (dget_In _ _ _ ek)) as (b & -> & hb). cbn [rbind]. destruct b.
        * destruct IH as (b & -> & hb2); [intros; eapply hr; [right|]; eassumption|]. exists b. split; [reflexivity|]. rewrite hb2. split.
          -- intros f k' x' [e|i]; [|eauto]. injection e as <- <-. exists y. split; [exact ek|apply hb; reflexivity].
          -- intros f k' x' i. apply f. right. exact i.
        * exists false. split; [reflexivity|]. split; [discriminate|]. intros f. destruct (f k x (or_introl eq_refl)) as (y' & e' & s'). apply hb. congruence.
      + exists false. split; [reflexivity|]. split; [discriminate|]. intros f. destruct (f k x (or_introl eq_refl)) as (y' & e' & s'). congruence.
  Qed.
  Lemma obj_eq_spec up l i c y : same_instance (IObj i c up l) y = false ->
    exists b, obj_eq up (length l) y = Ok b /\ (b = true <-> Same (IObj i c up l) y).
  Proof.
    intros ns. destruct y as [v|ys|ys|j d u ys|j d ys]; cbn [obj_eq].
    - exists false. split; [reflexivity|]. split; intros q; [discriminate q|inversion q].
    - exists false. split; [reflexivity|]. split; intros q; [discriminate q|inversion q].
    - destruct (Nat.eqb (length l) (length ys)) eqn:el.
      + destruct ys as [|[k z] ys]; [destruct l; [|discriminate el]|]; eexists; (split; [reflexivity|]).
        * split; [intros _; apply same_empty_r|reflexivity].
        * split; intros q; [discriminate q|inversion q].
      + exists false. split; [reflexivity|]. split; intros q; [discriminate q|inversion q; subst; discriminate el].
    - assert (ij : i <> j). { intros ->. unfold same_instance in ns. cbn in ns. rewrite Nat.eqb_refl in ns. discriminate. }
      destruct (Nat.eqb (length l) (length ys)) eqn:el.
      + destruct ys as [|[k z] ys]; [destruct l; [|discriminate el]|]; eexists; (split; [reflexivity|]).
        * split; [intros _; apply same_empty|reflexivity].
        * split; intros q; [discriminate q|inversion q; subst; congruence].
      + exists false. split; [reflexivity|]. split; intros q; [discriminate q|inversion q; subst; [congruence|discriminate el]].
    - exists false. split; [reflexivity|]. split; intros q; [discriminate q|inversion q].
  Qed.
  Lemma same_obj_sym i c u l y : Same (IObj i c u l) y -> Same y (IObj i c u l).
  Proof. intros q. inversion q; subst; constructor. Qed.
  Lemma same_flip l m : Forall2 (fun x y => Same y x) l m -> Forall2 Same m l.
  Proof. induction 1; constructor; auto. Qed.

  (** symmetry *)
  Lemma same_sym n : forall x y, depth x <= n -> World h x -> World h y -> Same x y -> Same y x.
  Proof.
    induction n as [|n IH]; intros x y hd wx wy s; [pose proof (depth_pos x); lia|].
    destruct s as [v w he|xs ys f|xs ys el f|i c d u v l m|i c d l m|i j c l m f|i j c d u v|i c u|i c u]; try (constructor; fail).
    - constructor. apply prim_sym; [exact (w_prim _ _ wx v ltac:(constructor))|exact he].
    - constructor. cbn [depth] in hd. assert (K : forall x, In x xs -> depth x <= n) by (intros; eapply depth_list; eassumption).
      assert (W1 : forall x, In x xs -> World h x) by (intros; eapply world_list; [exact wx|assumption]).
      assert (W2 : forall x, In x ys -> World h x) by (intros; eapply world_list; [exact wy|assumption]).
      clear -f K W1 W2 IH. induction f; constructor; [apply IH; auto using in_eq|]. apply IHf; intros; auto using in_cons.
    - cbn [depth] in hd. assert (K : forall k x, In (k, x) xs -> depth x <= n) by (intros; eapply depth_map; eassumption).
      pose proof (w_keys _ _ wx xs ltac:(constructor)) as nx. pose proof (w_keys _ _ wy ys ltac:(constructor)) as ny.
      constructor; [congruence|]. intros k y i.
      assert (ik : In k (dkeys xs)).
      { apply (NoDup_length_incl nx (l' := dkeys ys)); [unfold dkeys; rewrite !map_length; lia| |apply (in_map fst) in i; exact i].
        intros k' i'. apply in_map_iff in i'. destruct i' as ((k2 & x2) & <- & i2). destruct (f _ _ i2) as (y2 & e2 & _). cbn. eapply dget_Some_key. exact e2. }
      apply in_map_iff in ik. destruct ik as ((k2 & x2) & e2 & i2). cbn in e2. subst k2. destruct (f _ _ i2) as (y2 & e2 & s2).
      assert (dget k ys = Some y) by (apply In_dget; [exact ny|exact i]). replace y2 with y in * by congruence. exists x2. split; [apply In_dget; assumption|].
      apply IH; [eapply K; eassumption|eapply world_map; [exact wx|exact i2]|eapply world_map; [exact wy|exact i]|exact s2].
    - apply same_items. cbn [depth] in hd. assert (K : forall x, In x l -> depth x <= n) by (intros; eapply depth_list; eassumption).
      assert (W1 : forall x, In x l -> World h x) by (intros; eapply world_arr; [exact wx|assumption]).
      assert (W2 : forall x, In x m -> World h x) by (intros; eapply world_arr; [exact wy|assumption]).
      clear -f K W1 W2 IH. induction f; constructor; [apply IH; auto using in_eq|]. apply IHf; intros; auto using in_cons.
  Qed.
  Lemma same_iff x y : World h x -> World h y -> Same x y <-> Same y x.
  Proof. intros wx wy. split; eapply same_sym; try eassumption; reflexivity. Qed.
  Lemma same_refl n : forall x, depth x <= n -> World h x -> Same x x.
  Proof.
    induction n as [|n IH]; intros x hd wx; [pose proof (depth_pos x); lia|]. destruct x as [v|xs|xs|i c u l|i c l]; try (constructor; fail).
    - constructor. apply prim_refl. exact (w_prim _ _ wx v ltac:(constructor)).
    - constructor. cbn [depth] in hd. assert (K : forall x, In x xs -> depth x <= n) by (intros; eapply depth_list; eassumption).
      assert (W1 : forall x, In x xs -> World h x) by (intros; eapply world_list; [exact wx|assumption]).
      clear -K W1 IH. induction xs; constructor; [apply IH; auto using in_eq|]. apply IHxs; intros; auto using in_cons.
    - cbn [depth] in hd. constructor; [reflexivity|]. intros k x i. exists x. split; [apply In_dget; [exact (w_keys _ _ wx xs ltac:(constructor))|exact i]|].
      apply IH; [eapply depth_map; eassumption|eapply world_map; eassumption].
  Qed.
  Lemma same_trans n : forall x y z, depth x <= n -> World h x -> World h y -> World h z -> Same x y -> Same y z -> Same x z.
  Proof.
    induction n as [|n IH]; intros x y z hd wx wy wz s1 s2; [pose proof (depth_pos x); lia|].
    assert (F : forall xs ys zs, (forall x, In x xs -> depth x <= n /\ World h x) -> (forall x, In x ys -> World h x) -> (forall x, In x zs -> World h x) ->
      Forall2 Same xs ys -> Forall2 Same ys zs -> Forall2 Same xs zs).
    { intros xs ys zs k1 k2 k3 f1. revert zs k3. induction f1 as [|x1 y1 xs ys s f1 IHf]; intros zs k3 f2; inversion f2; subst; constructor.
      - eapply IH; [apply k1; left; reflexivity|apply k1; left; reflexivity| | |exact s|eassumption]; auto using in_eq.
      - apply IHf; intros; auto using in_cons. }
    assert (E1 : same_instance x y = true -> Same x z) by (intros e; rewrite (world_same _ _ _ wx wy e); exact s2).
    assert (E2 : same_instance y z = true -> Same x z) by (intros e; rewrite <- (world_same _ _ _ wy wz e); exact s1).
    destruct s1 as [v w he|xs ys f|xs ys el f|i c d u v l m|i c d l m|i j c l m f|i j c d u v|i c u|i c u].
    - inversion s2; subst. constructor. eapply prim_trans; [exact (w_prim _ _ wx v ltac:(constructor))|exact he|assumption].
    - inversion s2; subst. constructor. cbn [depth] in hd. eapply F; [| | |exact f|eassumption]; intros x i; [split; [eapply depth_list; eassumption|exact (world_list _ _ _ wx i)]|exact (world_list _ _ _ wy i)|exact (world_list _ _ _ wz i)].
    - inversion s2 as [| |? zs el2 f2| | | | | |j d v]; subst.
      + constructor; [congruence|]. intros k x i. destruct (f _ _ i) as (y & e1 & t1). destruct (f2 k y (dget_In _ _ _ e1)) as (z & e2 & t2). exists z. split; [exact e2|].
        cbn [depth] in hd. eapply (IH x y z); [eapply depth_map; eassumption|exact (world_map _ _ _ _ wx i)| | |exact t1|exact t2].
        * eapply world_map; [exact wy|apply dget_In; exact e1].
        * eapply world_map; [exact wz|apply dget_In; exact e2].
      + destruct xs; [|discriminate el]. constructor.
    - apply E1. apply Nat.eqb_refl.
    - apply E1. apply Nat.eqb_refl.
    - inversion s2; subst.
      + apply E2. apply Nat.eqb_refl.
      + apply same_items. cbn [depth] in hd. eapply F; [| | |exact f|eassumption]; intros x i'; [split; [eapply depth_list; eassumption|exact (world_arr _ _ _ _ _ wx i')]|exact (world_arr _ _ _ _ _ wy i')|exact (world_arr _ _ _ _ _ wz i')].
    - inversion s2; subst; [|constructor|constructor]. apply E2. apply Nat.eqb_refl.
    - inversion s2 as [| |? zs el2 f2| | | | | |]; subst; [|constructor]. destruct zs; [constructor|discriminate el2].
    - inversion s2; subst; [|constructor|]. { apply E2. apply Nat.eqb_refl. } constructor; [reflexivity|]. intros ? ? [].
  Qed.

  Lemma py_eq_spec n : forall x y, (depth x <= n \/ depth y <= n) -> World h x -> World h y -> exists b, py_eq sub n x y = Ok b /\ (b = true <-> Same x y).
  Proof.
    induction n as [|n IH]; intros x y hd wx wy; [pose proof (depth_pos x); pose proof (depth_pos y); lia|].
    assert (NO : forall a b, (nat -> ~ Same a b) -> exists r, Ok false = Ok r /\ (r = true <-> Same a b)).
    { intros a b q. exists false. split; [reflexivity|]. split; [discriminate|]. intros s. destruct (q 0 s). }
    (* an array and anything *)
    assert (AR : forall i c xs b, (depth (IArr i c xs) <= S n \/ depth b <= S n) -> World h (IArr i c xs) -> World h b -> right_first sub (IArr i c xs) b = false ->
      exists r, dunder_eq sub (py_eq sub n) (IArr i c xs) b = Ok r /\ (r = true <-> Same (IArr i c xs) b)).
    { intros i c xs b hd' w1 w2 rf. unfold dunder_eq. destruct (same_instance (IArr i c xs) b) eqn:si.
      - pose proof (world_same _ _ _ w1 w2 si) as <-. exists true. split; [reflexivity|]. split; [intros _; apply same_arr|reflexivity].
      - destruct b as [v|ys|ys|j d u ys|j d ys]; cbn [arr_eq]; try (apply NO; intros _ q; inversion q; fail).
        assert (ij : i <> j). { intros ->. unfold same_instance in si. cbn in si. rewrite Nat.eqb_refl in si. discriminate. }
        destruct (sub d c) eqn:sd.
        + cbn in rf. rewrite sd in rf. cbn [andb] in rf. apply Bool.negb_false_iff in rf. apply Nat.eqb_eq in rf. subst d.
          destruct (Nat.eqb (length xs) (length ys)) eqn:el.
          * apply Nat.eqb_eq in el. destruct (all_eq_spec (py_eq sub n) xs ys el) as (b & -> & hb).
            { intros x' y' ix iy. apply IH; [|eapply world_arr; [exact w1|exact ix]|eapply world_arr; [exact w2|exact iy]].
              cbn [depth] in hd'. destruct hd' as [hd'|hd']; [left|right]; eapply depth_list; eassumption. }
            exists b. split; [reflexivity|]. rewrite hb. split; [apply same_items|]. intros q. inversion q; subst; [congruence|assumption].
          * apply NO. intros _ q. inversion q; subst; [congruence|]. apply Nat.eqb_neq in el. apply el. eapply F2_len; eassumption.
        + apply NO. intros _ q. inversion q; subst; [congruence|]. rewrite (o_refl _ order) in sd. discriminate. }
    assert (OB : forall i c u l b, World h (IObj i c u l) -> World h b ->
      exists r, dunder_eq sub (py_eq sub n) (IObj i c u l) b = Ok r /\ (r = true <-> Same (IObj i c u l) b)).
    { intros i c u l b w1 w2. unfold dunder_eq. destruct (same_instance (IObj i c u l) b) eqn:si; [|apply obj_eq_spec; exact si].
      pose proof (world_same _ _ _ w1 w2 si) as <-. exists true. split; [reflexivity|]. split; [intros _; apply same_obj|reflexivity]. }
    assert (RF : forall a b, right_first sub a b = true -> right_first sub b a = false).
    { intros a b. unfold right_first. destruct (class_of a) as [c|]; destruct (class_of b) as [d|]; try reflexivity; try discriminate.
      intros e. apply Bool.andb_true_iff in e. destruct e as [e1 e2]. apply Bool.negb_true_iff, Nat.eqb_neq in e2.
      destruct (sub c d) eqn:e3; [|reflexivity]. destruct e2. apply (o_antisym _ order); assumption. }
    assert (SW : forall a b, World h a -> World h b -> (exists r, dunder_eq sub (py_eq sub n) b a = Ok r /\ (r = true <-> Same b a)) ->
      exists r, dunder_eq sub (py_eq sub n) b a = Ok r /\ (r = true <-> Same a b)).
    { intros a b wa wb (r & e & i). exists r. split; [exact e|]. rewrite i. apply same_iff; assumption. }
    assert (hd2 : depth y <= S n \/ depth x <= S n) by tauto.
    remember (S n) as m eqn:em. destruct x as [v|xs|xs|i c u l|i c l]; destruct y as [w|ys|ys|j d u' l'|j d l']; subst m; cbn [py_eq];
      try (apply NO; intros _ q; inversion q; fail);
      try (destruct (right_first sub _ _) eqn:rf; try discriminate rf); try (apply SW; [assumption|assumption|]); try (apply OB; assumption);
      try (apply AR; [assumption|assumption|assumption|first [exact rf|apply RF; exact rf|reflexivity]]); try (apply AR; [tauto|assumption|assumption|reflexivity]).
    - exists (val_eq v w). split; [reflexivity|]. rewrite val_eq_spec. split; [apply same_prim|]. intros q. inversion q; subst. assumption.
    - destruct (Nat.eqb (length xs) (length ys)) eqn:el.
      + apply Nat.eqb_eq in el. destruct (all_eq_spec (py_eq sub n) xs ys el) as (b & -> & hb).
        { intros x' y' ix iy. apply IH; [|eapply world_list; [exact wx|exact ix]|eapply world_list; [exact wy|exact iy]].
          cbn [depth] in hd. destruct hd as [hd|hd]; [left|right]; eapply depth_list; eassumption. }
        exists b. split; [reflexivity|]. rewrite hb. split; [apply same_list|]. intros q. inversion q; subst. assumption.
      + apply NO. intros _ q. inversion q; subst. apply Nat.eqb_neq in el. apply el. eapply F2_len; eassumption.
    - destruct (Nat.eqb (length xs) (length ys)) eqn:el.
      + apply Nat.eqb_eq in el. destruct (map_eq_spec (py_eq sub n) xs ys) as (b & -> & hb).
        { intros k x' y' ix iy. apply IH; [|eapply world_map; [exact wx|exact ix]|eapply world_map; [exact wy|exact iy]].
          cbn [depth] in hd. destruct hd as [hd|hd]; [left|right]; eapply depth_map; eassumption. }
        exists b. split; [reflexivity|]. rewrite hb. split; [intros q; apply same_map; assumption|]. intros q. inversion q; subst. assumption.
      + apply NO. intros _ q. inversion q; subst. apply Nat.eqb_neq in el. apply el. assumption.
  Qed.
End Main.

(** comparing always ends, and means [Same] *)
Theorem equality_means : forall sub h n x y, Order sub -> World h x -> World h y -> depth x <= n \/ depth y <= n ->
  exists b, py_eq sub n x y = Ok b /\ (b = true <-> Same x y).
Proof. intros sub h n x y o wx wy d. eapply py_eq_spec; eassumption. Qed.
Print Assumptions equality_means.
Theorem equality_equivalence : forall sub h n x y z, Order sub -> World h x -> World h y -> World h z -> depth x <= n -> depth y <= n ->
  py_eq sub n x x = Ok true /\ py_eq sub n x y = py_eq sub n y x /\
  (py_eq sub n x y = Ok true -> py_eq sub n y z = Ok true -> py_eq sub n x z = Ok true).
Proof.
  intros sub h n x y z o wx wy wz dx dy.
  destruct (py_eq_spec sub o h n x x (or_introl dx) wx wx) as (b1 & e1 & h1).
  destruct (py_eq_spec sub o h n x y (or_introl dx) wx wy) as (b2 & e2 & h2).
  destruct (py_eq_spec sub o h n y x (or_introl dy) wy wx) as (b3 & e3 & h3).
  destruct (py_eq_spec sub o h n y z (or_introl dy) wy wz) as (b4 & e4 & h4).
  destruct (py_eq_spec sub o h n x z (or_introl dx) wx wz) as (b5 & e5 & h5).
  rewrite e1, e2, e3, e4, e5. split; [|split].
  - f_equal. apply h1. exact (same_refl h n x dx wx).
  - f_equal. apply Bool.eq_true_iff_eq. rewrite h2, h3. apply (same_iff h); assumption.
  - intros q1 q2. injection q1 as ->. injection q2 as ->. f_equal. apply h5. eapply (same_trans h n x y z); try assumption; [apply h2|apply h4]; reflexivity.
Qed.
Print Assumptions equality_equivalence.
(** two arrays are equal when they have the same class and equal items *)
Theorem array_equality : forall sub h n i j c d l m, Order sub -> World h (IArr i c l) -> World h (IArr j d m) -> i <> j -> depth (IArr i c l) <= S n ->
  py_eq sub (S n) (IArr i c l) (IArr j d m) = Ok true <-> c = d /\ Forall2 (fun x y => py_eq sub n x y = Ok true) l m.
Proof.
  intros sub h n i j c d l m o wx wy ne dx. destruct (py_eq_spec sub o h (S n) _ _ (or_introl dx) wx wy) as (b & e & hb). rewrite e.
  assert (F : Forall2 (fun x y => py_eq sub n x y = Ok true) l m <-> Forall2 Same l m).
  { assert (K : forall x y, In x l -> In y m -> py_eq sub n x y = Ok true <-> Same x y).
    { intros x y ix iy. cbn [depth] in dx. destruct (py_eq_spec sub o h n x y) as (r & er & hr); [left; eapply depth_list; eassumption|exact (world_arr _ _ _ _ _ wx ix)|exact (world_arr _ _ _ _ _ wy iy)|].
      rewrite er, <- hr. split; [intros q; injection q as ->; reflexivity|intros ->; reflexivity]. }
    clear -K. split; intros f; induction f as [|x y l m s f IH]; constructor;
      try (apply (proj1 (K x y (or_introl eq_refl) (or_introl eq_refl))); assumption);
      try (apply (proj2 (K x y (or_introl eq_refl) (or_introl eq_refl))); assumption); apply IH; intros; apply K; right; assumption. }
  rewrite F. split.
  - intros q. injection q as ->. pose proof (proj1 hb eq_refl) as s. inversion s; subst; [congruence|]. split; [reflexivity|assumption].
  - intros [<- f]. f_equal. apply hb. apply same_items. exact f.
Qed.
Print Assumptions array_equality.
(** two instances with members are never equal, whatever their members, nor is an instance equal to the dictionary of its members *)
Theorem object_equality_refuted : forall sub n i j c d u v l m, i <> j -> l <> [] ->
  py_eq sub (S n) (IObj i c u l) (IObj j d v m) = Ok false /\ py_eq sub (S n) (IObj i c u l) (IMap m) = Ok false /\ py_eq sub (S n) (IMap m) (IObj i c u l) = Ok false.
Proof.
  intros sub n i j c d u v l m ne nl.
  assert (N : forall i c u l, forall y, same_instance (IObj i c u l) y = false -> (forall k x ys, y = IMap ((k, x) :: ys) -> True) ->
     (l <> [] \/ match y with IMap [] | IObj _ _ _ [] => False | _ => True end) -> forall rec, dunder_eq sub rec (IObj i c u l) y = Ok false).
  { clear. intros i c u l y si _ hh rec. unfold dunder_eq. rewrite si. destruct y as [w|ys|ys|j d v ys|j d ys]; cbn [obj_eq]; try reflexivity;
      (destruct (Nat.eqb (length l) (length ys)) eqn:el; [|reflexivity]; destruct ys as [|[k x] ys]; [|reflexivity]; destruct hh as [hh|[]]; destruct l; [congruence|discriminate el]). }
  assert (E : Nat.eqb i j = false) by (apply Nat.eqb_neq; exact ne). assert (E' : Nat.eqb j i = false) by (apply Nat.eqb_neq; congruence).
  split; [|split]; cbn [py_eq].
  - destruct (right_first _ _ _); [|apply N; [exact E|auto|left; exact nl]]. unfold dunder_eq. unfold same_instance. cbn [id_of]. rewrite E'. cbn [obj_eq].
    destruct (Nat.eqb (length m) (length l)); [|reflexivity]. destruct l as [|[k x] l]; [congruence|reflexivity].
  - apply N; [reflexivity|auto|left; exact nl].
  - apply N; [reflexivity|auto|left; exact nl].
Qed.
Print Assumptions object_equality_refuted.
(** equal values share the objects they contain *)
Theorem equal_share_objects : forall sub h n x y p o, Order sub -> World h x -> World h y -> depth x <= n -> py_eq sub n x y = Ok true ->
  Inside p x o -> (exists i c u k z l, o = IObj i c u ((k, z) :: l)) -> Inside p y o.
Proof.
  intros sub h n x y p o ord wx wy dx e hin. destruct (py_eq_spec sub ord h n x y (or_introl dx) wx wy) as (b & e' & hb).
  assert (s : Same x y) by (apply hb; congruence). clear e e' hb dx n. revert y wy s.
  induction hin as [x|i p l x z en hi IH|i p j c l x z en hi IH]; intros y wy s ho.
  - destruct ho as (i & c & u & k & z & l & ->). inversion s; subst. assert (E : IObj i c u ((k, z) :: l) = IObj i d v m); [|rewrite E; constructor].
    eapply world_same; [exact wx|exact wy|apply Nat.eqb_refl].
  - inversion s as [|xs ys f| | | | | | |]; subst. assert (N : exists x', nth_error ys i = Some x' /\ Same x x').
    { clear -f en. revert i en. induction f as [|a b xs ys sab f IHf]; intros [|i] en; cbn in *; try discriminate; [injection en as <-; eauto|eauto]. }
    destruct N as (x' & en' & s'). eapply in_list; [exact en'|]. apply IH; [exact (world_list _ _ _ wx (nth_error_In _ _ en))|exact (world_list _ _ _ wy (nth_error_In _ _ en'))|exact s'|exact ho].
  - inversion s as [| | | |i' c' d' l' m'|i' j' c' l' m' f| | |]; subst.
    + assert (E : IArr j c l = IArr j d' m') by (eapply world_same; [exact wx|exact wy|apply Nat.eqb_refl]). rewrite <- E. eapply in_arr; eassumption.
    + assert (N : exists x', nth_error m' i = Some x' /\ Same x x').
      { clear -f en. revert i en. induction f as [|a b xs ys sab f IHf]; intros [|i] en; cbn in *; try discriminate; [injection en as <-; eauto|eauto]. }
      destruct N as (x' & en' & s'). eapply in_arr; [exact en'|]. apply IH; [exact (world_arr _ _ _ _ _ wx (nth_error_In _ _ en))|exact (world_arr _ _ _ _ _ wy (nth_error_In _ _ en'))|exact s'|exact ho].
Qed.
Print Assumptions equal_share_objects.
(** membership and position, by equality *)
Theorem contains_equal : forall sub h n x i c l, Order sub -> World h x -> World h (IArr i c l) -> depth x <= n ->
  exists b, contains sub n x l = Ok b /\ (b = true <-> exists v, In v l /\ py_eq sub n v x = Ok true).
Proof.
  intros sub h n x i c l o wx wl dx. assert (W : forall v, In v l -> World h v) by (intros v iv; exact (world_arr _ _ _ _ _ wl iv)). clear wl i c.
  induction l as [|v l IH]; cbn [contains].
  - exists false. split; [reflexivity|]. split; [discriminate|]. intros (v & [] & _).
  - destruct (py_eq_spec sub o h n v x (or_intror dx) (W v (or_introl eq_refl)) wx) as (b & e & hb).
    destruct (same_instance v x) eqn:si.
    + exists true. split; [reflexivity|]. split; [|reflexivity]. intros _. exists v. split; [left; reflexivity|].
      pose proof (world_same _ _ _ (W v (or_introl eq_refl)) wx si) as ->. rewrite e. f_equal. apply hb. exact (same_refl h n x dx wx).
    + rewrite e. cbn [rbind]. destruct b.
      * exists true. split; [reflexivity|]. split; [|reflexivity]. intros _. exists v. split; [left; reflexivity|exact e].
      * destruct IH as (b & -> & hb2); [intros; apply W; right; assumption|]. exists b. split; [reflexivity|]. rewrite hb2. split.
        -- intros (v' & i' & e'). exists v'. split; [right; exact i'|exact e'].
        -- intros (v' & [<-|i'] & e'); [congruence|]. exists v'. split; assumption.
Qed.
Print Assumptions contains_equal.
Theorem index_first : forall sub h n x i c l p, Order sub -> World h x -> World h (IArr i c l) -> depth x <= n ->
  index sub n 0 x l = Ok p <-> (exists v, nth_error l p = Some v /\ py_eq sub n v x = Ok true) /\ forall q v, q < p -> nth_error l q = Some v -> py_eq sub n v x = Ok false.
Proof.
  intros sub h n x i c l p o wx wl dx. assert (W : forall v, In v l -> World h v) by (intros v iv; exact (world_arr _ _ _ _ _ wl iv)). clear wl i c.
  assert (G : forall l, (forall v, In v l -> World h v) -> forall s p, index sub n s x l = Ok p <-> s <= p /\ (exists v, nth_error l (p - s) = Some v /\ py_eq sub n v x = Ok true) /\ forall q v, q < p - s -> nth_error l q = Some v -> py_eq sub n v x = Ok false).
  { clear l p W. induction l as [|v l IH]; intros W s p; cbn [index].
    - split; [discriminate|]. intros (_ & (v & e & _) & _). destruct (p - s); discriminate e.
    - destruct (py_eq_spec sub o h n v x (or_intror dx) (W v (or_introl eq_refl)) wx) as (b & e & hb).
      assert (T : b = true -> Ok s = Ok p <-> s <= p /\ (exists v0, nth_error (v :: l) (p - s) = Some v0 /\ py_eq sub n v0 x = Ok true) /\ forall q v0, q < p - s -> nth_error (v :: l) q = Some v0 -> py_eq sub n v0 x = Ok false).
      { intros ->. split.
        - intros q. injection q as ->. rewrite Nat.sub_diag. split; [lia|]. split; [exists v; split; [reflexivity|exact e]|]. intros; lia.
        - intros (le & _ & hq). f_equal. destruct (p - s) as [|k] eqn:ek; [lia|]. specialize (hq 0 v ltac:(lia) eq_refl). congruence. }
      destruct (same_instance v x) eqn:si.
      + apply T. pose proof (world_same _ _ _ (W v (or_introl eq_refl)) wx si) as ->. apply hb. exact (same_refl h n x dx wx).
      + rewrite e. cbn [rbind]. destruct b; [apply T; reflexivity|]. rewrite IH by (intros; apply W; right; assumption). split.
        * intros (le & (v' & e' & e2) & hq). split; [lia|]. replace (p - s) with (S (p - S s)) by lia. split; [exists v'; split; assumption|].
          intros [|q] v0 lt en; [cbn in en; injection en as <-; exact e|]. apply (hq q); [lia|exact en].
        * intros (le & (v' & e' & e2) & hq). destruct (p - s) as [|k] eqn:ek; [cbn in e'; injection e' as <-; congruence|]. split; [lia|]. replace (p - S s) with k by lia.
          split; [exists v'; split; assumption|]. intros q v0 lt en. apply (hq (S q)); [lia|exact en]. }
  rewrite (G l W 0 p). rewrite Nat.sub_0_r. split; [intros (_ & a & b); split; assumption|intros [a b]; split; [lia|split; assumption]].
Qed.
Print Assumptions index_first.
(** the position of a value that is not there is refused with ValueError *)
Theorem index_missing : forall sub h n x i c l, Order sub -> World h x -> World h (IArr i c l) -> depth x <= n ->
  contains sub n x l = Ok false <-> index sub n 0 x l = Err ValueError.
Proof.
  intros sub h n x i c l o wx wl dx. assert (W : forall v, In v l -> World h v) by (intros v iv; exact (world_arr _ _ _ _ _ wl iv)). clear wl i c.
  generalize 0. induction l as [|v l IH]; intros s; cbn [contains index]; [split; reflexivity|].
  destruct (same_instance v x); [split; discriminate|].
  destruct (py_eq_spec sub o h n v x (or_intror dx) (W v (or_introl eq_refl)) wx) as (b & e & _). rewrite e. cbn [rbind].
  destruct b; [split; discriminate|]. apply IH. intros; apply W; right; assumption.
Qed.
Print Assumptions index_missing.
(** an object with members is in an array only as the instance it is *)
Theorem object_membership : forall sub h n j d u k z m i c l, Order sub -> let x := IObj j d u ((k, z) :: m) in World h x -> World h (IArr i c l) -> depth x <= n ->
  contains sub n x l = Ok true <-> In x l.
Proof.
  intros sub h n j d u k z m i c l o x wx wl dx. destruct (contains_equal sub h n x i c l o wx wl dx) as (b & e & hb). rewrite e. split.
  - intros q. injection q as ->. destruct (proj1 hb eq_refl) as (v & iv & ev). pose proof (world_arr _ _ _ _ _ wl iv) as wv.
    destruct (py_eq_spec sub o h n v x (or_intror dx) wv wx) as (b2 & e2 & hb2). assert (s : Same v x) by (apply hb2; congruence). unfold x in s. inversion s; subst.
    rewrite (world_same h x (IObj j c0 u0 l0)); [exact iv|exact wx|exact wv|apply Nat.eqb_refl].
  - intros ix. f_equal. apply hb. exists x. split; [exact ix|]. destruct (py_eq_spec sub o h n x x (or_introl dx) wx wx) as (b2 & e2 & hb2). rewrite e2. f_equal. apply hb2. exact (same_refl h n x dx wx).
Qed.
Print Assumptions object_membership.

(** ** a case: two persons with the same name, an array of them and a copy of the array *)
Definition person (i : nat) (n : string) : iv := IObj i 1 false [("name", IPrim (VStr n))]%string.
Definition people : iv := IArr 10 2 [person 1 "Ann"; person 2 "Bob"].
Definition people' : iv := IArr 11 2 [person 1 "Ann"; person 2 "Bob"].       (* same objects *)
Definition people_copy : iv := IArr 12 2 [person 1 "Ann"; person 3 "Bob"].   (* another Bob *)
Definition numbers (i c : nat) : iv := IArr i c [IPrim (VInt 1); IPrim (VInt 2)].
Definition is_sub (c d : nat) : bool := Nat.eqb c d || (Nat.eqb c 3 && Nat.eqb d 2).
Example equality_cases :
  py_eq is_sub 5 people people' = Ok true /\ py_eq is_sub 5 people people_copy = Ok false /\
  py_eq is_sub 5 (numbers 20 2) (numbers 21 2) = Ok true /\ py_eq is_sub 5 (numbers 20 2) (numbers 21 3) = Ok false /\ py_eq is_sub 5 (numbers 21 3) (numbers 20 2) = Ok false /\
  py_eq is_sub 5 (numbers 20 2) (IList [IPrim (VInt 1); IPrim (VInt 2)]) = Ok false /\
  py_eq is_sub 5 (person 1 "Ann") (person 4 "Ann") = Ok false /\ py_eq is_sub 5 (IObj 5 1 true []) (IMap []) = Ok true /\
  contains is_sub 5 (person 2 "Bob") [person 1 "Ann"; person 2 "Bob"] = Ok true /\ contains is_sub 5 (person 3 "Bob") [person 1 "Ann"; person 2 "Bob"] = Ok false.
Proof. repeat split. Qed.
Definition heap (i : nat) : option iv :=
  match i with 1 => Some (person 1 "Ann") | 2 => Some (person 2 "Bob") | 3 => Some (person 3 "Bob") | 10 => Some people | 11 => Some people' | 12 => Some people_copy | _ => None end.
Example equality_hypotheses : Order is_sub /\ World heap people /\ World heap people' /\ World heap people_copy.
Proof.
  assert (P : forall p i n, Part p (person i n) -> p = person i n \/ p = IPrim (VStr n)).
  { intros p i n q. inversion q as [| | |? ? ? ? k x hi hp|]; subst; [left; reflexivity|]. destruct hi as [e|[]]. injection e as <- <-. inversion hp. right. reflexivity. }
  assert (W : forall i a b ps, heap i = Some (IArr i 2 [person a ps; person b "Bob"]) -> heap a = Some (person a ps) -> heap b = Some (person b "Bob") -> World heap (IArr i 2 [person a ps; person b "Bob"])).
  { intros i a b ps h1 h2 h3. split.
    - intros p j q ei. inversion q as [| | | |? ? ? x hi hp]; subst; [cbn in ei; injection ei as <-; exact h1|]. destruct hi as [<-|[<-|[]]]; apply P in hp; destruct hp as [->| ->]; cbn in ei; try discriminate; injection ei as <-; assumption.
    - intros l q. inversion q as [| | | |? ? ? x hi hp]; subst. destruct hi as [<-|[<-|[]]]; apply P in hp; destruct hp as [e|e]; discriminate e.
    - intros v q. inversion q as [| | | |? ? ? x hi hp]; subst. destruct hi as [<-|[<-|[]]]; apply P in hp; destruct hp as [e|e]; try discriminate e; injection e as ->; exact I. }
  split; [|split; [|split]]; try (apply W; reflexivity).
  unfold is_sub. split.
  - intros c. rewrite Nat.eqb_refl. reflexivity.
  - intros c d. destruct (Nat.eqb_spec c d); [auto|]. destruct (Nat.eqb_spec d c); [auto|]. cbn. destruct (Nat.eqb_spec c 3); cbn; [|discriminate]. subst. destruct (Nat.eqb_spec d 2); [subst; discriminate|discriminate].
  - intros a b c. destruct (Nat.eqb_spec a b); [subst; auto|]. cbn. destruct (Nat.eqb_spec a 3); [|discriminate]. cbn. destruct (Nat.eqb_spec b 2); [|discriminate]. subst. intros _.
    destruct (Nat.eqb_spec 2 c); [subst; reflexivity|discriminate].
Qed.
