(** Lemmas about nested serialisation. *)
From Verif Require Import Ser_Spec.
Local Open Scope list_scope.

Section SvInd.
  Variable P : sv -> Prop.
  Hypothesis hn : P SNull.
  Hypothesis ha : forall a, P (SAtom a).
  Hypothesis hl : forall own l, (forall x, In x l -> P x) -> P (SArr own l).
  Hypothesis ho : forall c fs, (forall k x, In (k, x) fs -> P x) -> P (SObj c fs).
  Fixpoint sv_ind' (v : sv) : P v :=
    match v with
    | SNull => hn
    | SAtom a => ha a
    | SArr own l => hl own l ((fix go (l : list sv) : forall x, In x l -> P x :=
        match l return forall x, In x l -> P x with
        | [] => fun x h => False_ind _ h
        | y :: l' => fun x h => match h with or_introl e => eq_ind y P (sv_ind' y) x e | or_intror h' => go l' x h' end
        end) l)
    | SObj c fs => ho c fs ((fix go (l : list (string * sv)) : forall k x, In (k, x) l -> P x :=
        match l return forall k x, In (k, x) l -> P x with
        | [] => fun k x h => False_ind _ h
        | (k', y) :: l' => fun k x h =>
            match h with
            | or_introl e => eq_ind y P (sv_ind' y) x (f_equal (fun q : string * sv => snd q) e)
            | or_intror h' => go l' k x h'
            end
        end) fs)
    end.
End SvInd.

Section P.
  Variable cls : nat -> scls.
  Variable arr : nat -> sarr.
  Variable prim : nat -> sv -> res out.
  Variable o : sopts.
  Notation ser := (ser cls arr prim o).
  Notation members := (members cls arr prim o).
  Notation Leads := (Leads cls arr o).
  Notation FN := (sty -> list string -> res out).

  Definition items (l : list sv) : list (sv * FN) := map (fun x => (x, ser x)) l.
  Lemma prep_members fs : (fix prep (l : list (string * sv)) := match l with [] => [] | (k, x) :: l' => (k, (x, ser x)) :: prep l' end) fs = members fs.
  Proof. induction fs as [|[k x] fs IH]; [reflexivity|]. unfold Ser_Model.members in *. cbn [map fst snd]. rewrite <- IH. reflexivity. Qed.
  Lemma prep_items l : (fix prep (l : list sv) := match l with [] => [] | x :: l' => (x, ser x) :: prep l' end) l = items l.
  Proof. induction l as [|x l IH]; [reflexivity|]. unfold items in *. cbn [map]. rewrite <- IH. reflexivity. Qed.
  Lemma ser_obj t c d fs e : Writes t c d -> ser (SObj c fs) t e = write_entity cls o d c e fs (members fs).
  Proof. intros [-> |[-> ->]]; cbn [Ser_Model.ser]; rewrite prep_members; reflexivity. Qed.
  Lemma ser_arr t own a l e : t = TArr a \/ t = TAny /\ own = Some a -> ser (SArr own l) t e = write_array arr o a e (items l).
  Proof. intros [-> |[-> ->]]; cbn [Ser_Model.ser]; rewrite prep_items; reflexivity. Qed.

  Definition keeps (c : nat) (e only : list string) (k : string) (v : sv) : bool :=
    (mem k (so_required (cls c)) || included o e only k v) && negb (s_nd o && so_default (cls c) k v).
  Lemma printed_In {F} c e only (fs : list (string * (sv * F))) k v f :
    In (k, (v, f)) (printed cls o c e only fs) <-> In (k, (v, f)) fs /\ keeps c e only k v = true.
  Proof.
    unfold printed. rewrite filter_In, in_app_iff, !filter_In. cbn [fst snd]. fold (keeps c e only k v).
    destruct (mem k (so_required (cls c))); cbn; intuition congruence.
  Qed.
  Lemma NoDup_map_filter {A B} (g : A -> B) (f : A -> bool) l : NoDup (map g l) -> NoDup (map g (filter f l)).
  Proof.
    induction l as [|x l IH]; cbn; [auto|]. intros h. inversion h as [|? ? ni nd]; subst. destruct (f x); cbn; [|apply IH, nd].
    constructor; [|apply IH, nd]. intros i. apply ni. apply in_map_iff in i. destruct i as (y & e & i). apply filter_In in i. apply in_map_iff. exists y. tauto.
  Qed.
  Lemma printed_NoDup {F} c e only (fs : list (string * (sv * F))) : NoDup (map fst fs) -> NoDup (map fst (printed cls o c e only fs)).
  Proof.
    intros h. unfold printed. apply NoDup_map_filter. rewrite map_app. apply NoDup_app_intro.
    - apply NoDup_map_filter, h.
    - apply NoDup_map_filter, h.
    - intros x h1 h2. apply in_map_iff in h1, h2. destruct h1 as (y & <- & h1). destruct h2 as (z & e2 & h2). apply filter_In in h1, h2.
      destruct h1 as [_ h1]. destruct h2 as [_ h2]. rewrite e2, h1 in h2. discriminate.
  Qed.

  (** what is written of each member *)
  Definition member_out (c : nat) (e only : list string) (m : string * (sv * FN)) (r : string * out) : Prop :=
    fst r = fst m /\ exists t, so_type (cls c) (fst m) = Some t /\
      (if included o e only (fst m) (fst (snd m)) then snd (snd m) t e else Ok ONull) = Ok (snd r).
  Lemma write_members_spec c e only fs r : write_members cls o c e only fs = Ok r <-> Forall2 (member_out c e only) fs r.
  Proof.
    revert r. induction fs as [|[k [v f]] fs IH]; intros r; cbn [write_members].
    - split; [injection 1 as <-; constructor|]. intros h. inversion h. reflexivity.
    - destruct (so_type (cls c) k) as [t|] eqn:et; [|split; [discriminate|]; intros h; inversion h as [|? ? ? ? [_ (t & h1 & _)] _]; subst; cbn in h1; congruence].
      destruct (if included o e only k v then f t e else Ok ONull) as [w|x] eqn:ew; cbn [rbind].
      + destruct (write_members cls o c e only fs) as [r'|x]; cbn [rbind].
        * split.
          -- injection 1 as <-. constructor; [split; [reflexivity|exists t; auto]|]. apply IH. reflexivity.
          -- intros h. inversion h as [|? [k' w'] ? r2 [h1 (t' & h2 & h3)] h4]; subst. cbn [fst snd] in *. apply IH in h4. injection h4 as <-.
             assert (t' = t) by congruence. subst t'. rewrite ew in h3. injection h3 as <-. rewrite h1. reflexivity.
        * split; [discriminate|]. intros h. inversion h as [|? ? ? ? _ h4]; subst. apply IH in h4. discriminate.
      + split; [discriminate|]. intros h. inversion h as [|? ? ? ? [_ (t' & h2 & h3)] _]; subst. cbn [fst snd] in *. assert (t' = t) by congruence. subst t'.
        rewrite ew in h3. discriminate.
  Qed.

  Lemma Forall2_In_left {A B} (R : A -> B -> Prop) l l' x : Forall2 R l l' -> In x l -> exists y, In y l' /\ R x y.
  Proof. induction 1; cbn; [tauto|]. intros [<- |i]; [eauto|]. destruct (IHForall2 i) as (y' & ? & ?). eauto. Qed.
  Lemma Forall2_In_right {A B} (R : A -> B -> Prop) l l' y : Forall2 R l l' -> In y l' -> exists x, In x l /\ R x y.
  Proof. induction 1; cbn; [tauto|]. intros [<- |i]; [eauto|]. destruct (IHForall2 i) as (x' & ? & ?). eauto. Qed.
  Lemma member_out_keys c e only fs r : Forall2 (member_out c e only) fs r -> map fst r = map fst fs.
  Proof. induction 1 as [|? ? ? ? [h _]]; cbn; [reflexivity|]. congruence. Qed.

  Lemma members_In fs k v f : In (k, (v, f)) (members fs) <-> In (k, v) fs /\ f = ser v.
  Proof.
    unfold Ser_Model.members. rewrite in_map_iff. split.
    - intros ([k' v'] & e & i). cbn in e. injection e as <- <- <-. auto.
    - intros [i ->]. exists (k, v). auto.
  Qed.
  Lemma members_keys fs : map fst (members fs) = map fst fs.
  Proof. unfold Ser_Model.members. rewrite map_map. apply map_ext. reflexivity. Qed.

  (** the members of a written object *)
  Lemma write_object_In schema d c e only fs r k w : NoDup (map fst fs) -> write_object cls o schema d c e only (members fs) = Ok r ->
    k <> "$schema"%string \/ (schema || negb (Nat.eqb c d) = false) ->
    (dget k r = Some w <->
     exists v t, In (k, v) fs /\ keeps c (hides cls o c e) only k v = true /\ so_type (cls c) k = Some t /\
       (if included o (hides cls o c e) only k v then ser v t (hides cls o c e) else Ok ONull) = Ok w).
  Proof.
    intros nd h hk. unfold write_object in h. destruct (write_members _ _ _ _ _ _) as [r0|x] eqn:e0; [|discriminate]. cbn [rbind] in h. injection h as hr.
    assert (E : dget k r = dget k r0).
    { rewrite <- hr. destruct hk as [hk|hk]; [|rewrite hk; reflexivity]. destruct (schema || negb (Nat.eqb c d)); [|reflexivity]. cbn [dget].
      destruct (eq_dec k "$schema"%string); [contradiction|]. rewrite dget_ddel. destruct (eq_dec k "$schema"%string); [contradiction|reflexivity]. }
    rewrite E. clear E hk hr. apply write_members_spec in e0.
    set (e' := hides cls o c e) in *.
    assert (N : NoDup (map fst r0)).
    { rewrite (member_out_keys _ _ _ _ _ e0). apply printed_NoDup, printed_NoDup. rewrite members_keys. exact nd. }
    split.
    - intros g. apply dget_In in g. destruct (Forall2_In_right _ _ _ _ e0 g) as ([k' [v f]] & i & [hk (t & h1 & h2)]). cbn [fst snd] in *. subst k'.
      apply printed_In in i. destruct i as [i _]. apply printed_In in i. destruct i as [i hk]. apply members_In in i. destruct i as [i ->]. exists v, t. auto.
    - intros (v & t & i & hk & ht & hw). apply In_dget; [exact N|].
      assert (I : In (k, (v, ser v)) (printed cls o c e' only (printed cls o c e' only (members fs)))).
      { apply printed_In. split; [|exact hk]. apply printed_In. split; [|exact hk]. apply members_In. auto. }
      destruct (Forall2_In_left _ _ _ _ e0 I) as ([k' w'] & i' & [h1 (t' & h2 & h3)]). cbn [fst snd] in *. subst k'.
      assert (t' = t) by congruence. subst t'. rewrite hw in h3. injection h3 as <-. exact i'.
  Qed.
  Lemma write_object_kept schema d c e only fs r k v : NoDup (map fst fs) -> write_object cls o schema d c e only (members fs) = Ok r ->
    k <> "$schema"%string \/ (schema || negb (Nat.eqb c d) = false) ->
    In (k, v) fs -> keeps c (hides cls o c e) only k v = true ->
    exists w t, dget k r = Some w /\ so_type (cls c) k = Some t /\
      (if included o (hides cls o c e) only k v then ser v t (hides cls o c e) else Ok ONull) = Ok w.
  Proof.
    intros nd h hk i kp. unfold write_object in h. destruct (write_members _ _ _ _ _ _) as [r0|x] eqn:e0; [|discriminate].
    apply write_members_spec in e0.
    assert (I : In (k, (v, ser v)) (printed cls o c (hides cls o c e) only (printed cls o c (hides cls o c e) only (members fs)))).
    { apply printed_In. split; [|exact kp]. apply printed_In. split; [|exact kp]. apply members_In. auto. }
    destruct (Forall2_In_left _ _ _ _ e0 I) as ([k' w'] & i' & [h1 (t' & h2 & h3)]). cbn [fst snd] in *. subst k'.
    exists w', t'. split; [|split; assumption].
    eapply write_object_In; [exact nd| |exact hk|].
    - unfold write_object. rewrite (proj2 (write_members_spec _ _ _ _ _) e0). exact h.
    - exists v, t'. auto.
  Qed.
  (** the class name is at its place *)
  Lemma write_object_schema schema d c e only fs r : write_object cls o schema d c e only (members fs) = Ok r ->
    schema || negb (Nat.eqb c d) = true -> dget "$schema"%string r = Some (OSchema c).
  Proof.
    intros h hs. unfold write_object in h. destruct (write_members _ _ _ _ _ _) as [r0|x] eqn:e0; [|discriminate]. cbn [rbind] in h. injection h as <-.
    rewrite hs. reflexivity.
  Qed.

  Lemma add_keys_get fs ks data r k : add_keys fs ks data = Ok r ->
    dget k r = match dget k fs with Some v => if mem k ks && negb (is_null v) then Some (raw v) else dget k data | None => dget k data end.
  Proof.
    revert data. induction ks as [|k0 ks IH]; intros data h; cbn [add_keys] in h.
    - injection h as <-. cbn. destruct (dget k fs); reflexivity.
    - destruct (dget k0 fs) as [v0|] eqn:e0; [|discriminate]. apply IH in h. rewrite h. clear h. cbn [mem].
      destruct (dget k fs) as [v|] eqn:ek; [|destruct (is_null v0); [reflexivity|]; rewrite dget_dset; destruct (eq_dec k k0); congruence].
      destruct (eq_dec k k0) as [->|n].
      + assert (v0 = v) by congruence. subst v0. cbn [orb andb]. rewrite andb_comm. cbn [andb]. destruct (is_null v) eqn:en; cbn [negb andb]; [reflexivity|].
        destruct (mem k0 ks); [reflexivity|]. rewrite dget_dset_same. reflexivity.
      + cbn [orb]. destruct (mem k ks && negb (is_null v)); [reflexivity|]. destruct (is_null v0); [reflexivity|]. rewrite dget_dset_other by congruence. reflexivity.
  Qed.

  Definition item_out (a : nat) (e : list string) (i : nat) (x : sv) (w : out) : Prop :=
    (match item_type arr a i with Some t => if s_nd o && is_null x then Ok ONull else ser x t e | None => Ok ONull end) = Ok w.
  Lemma write_items_spec a e l : forall i r, write_items arr o a e i (items l) = Ok r <->
    length r = length l /\ forall j x w, nth_error l j = Some x -> nth_error r j = Some w -> item_out a e (i + j) x w.
  Proof.
    induction l as [|x l IH]; intros i r; cbn [items map write_items].
    - split; [injection 1 as <-; split; [reflexivity|]; intros [|j]; discriminate|]. intros [h _]. destruct r; [reflexivity|discriminate].
    - fold (items l). destruct (match item_type arr a i with Some t => if s_nd o && is_null x then Ok ONull else ser x t e | None => Ok ONull end) as [w|y] eqn:ew; cbn [rbind].
      + destruct (write_items arr o a e (S i) (items l)) as [r'|y] eqn:er; cbn [rbind].
        * split.
          -- injection 1 as <-. destruct (proj1 (IH (S i) r') er) as [h1 h2]. split; [cbn; congruence|]. intros [|j] x' w' g g'; cbn in g, g'.
             ++ injection g as <-. injection g' as <-. rewrite Nat.add_0_r. exact ew.
             ++ rewrite Nat.add_succ_r. apply (h2 j); assumption.
          -- intros [h1 h2]. destruct r as [|w' r]; [discriminate|]. pose proof (h2 0 x w' eq_refl eq_refl) as h0. rewrite Nat.add_0_r in h0. unfold item_out in h0. rewrite ew in h0. injection h0 as <-.
             f_equal. f_equal. assert (H : Ok r' = Ok r); [|congruence]. rewrite <- er. apply IH. split; [cbn in h1; congruence|]. intros j x' w' g g'.
             cbn [Nat.add]. rewrite <- Nat.add_succ_r. apply (h2 (S j)); assumption.
        * split; [discriminate|]. intros [h1 h2]. destruct r as [|w' r]; [discriminate|]. assert (H : write_items arr o a e (S i) (items l) = Ok r).
          { apply IH. split; [cbn in h1; congruence|]. intros j x' w2 g g'. cbn [Nat.add]. rewrite <- Nat.add_succ_r. apply (h2 (S j)); assumption. }
          congruence.
      + split; [discriminate|]. intros [h1 h2]. destruct r as [|w' r]; [discriminate|]. pose proof (h2 0 x w' eq_refl eq_refl) as h0. rewrite Nat.add_0_r in h0. unfold item_out in h0. congruence.
  Qed.

  Lemma item_type_spec a i t : item_type arr a i = Some t <-> sa_items (arr a) = inl t \/ exists ts, sa_items (arr a) = inr ts /\ nth_error ts i = Some t.
  Proof.
    unfold item_type. destruct (sa_items (arr a)) as [t0|ts]; split.
    - injection 1 as ->. auto.
    - intros [h|(ts & h & _)]; congruence.
    - intros h. right. eauto.
    - intros [h|(ts' & h & g)]; congruence.
  Qed.

  (** a shown member is kept and included *)
  Lemma shown_included c e k v : ~ In k e -> ~ In k (so_hidden (cls c)) -> (s_noro o = true -> ~ In k (so_readOnly (cls c))) ->
    (s_nd o = true -> v <> SNull /\ so_default (cls c) k v = false) ->
    included o (hides cls o c e) [] k v = true /\ keeps c (hides cls o c e) [] k v = true.
  Proof.
    intros h1 h2 h3 h4. assert (I : included o (hides cls o c e) [] k v = true).
    { unfold included. rewrite andb_true_r. apply andb_true_iff. split.
      - apply negb_true_iff, mem_not_In. unfold hides. rewrite !in_app_iff. intros [h|[h|h]]; try contradiction. destruct (s_noro o); [apply h3 in h; auto|destruct h].
      - apply negb_true_iff. destruct (s_nd o) eqn:en; [|reflexivity]. destruct (h4 eq_refl) as [h _]. destruct v; try reflexivity. congruence. }
    split; [exact I|]. unfold keeps. rewrite I, orb_true_r. cbn [andb]. apply negb_true_iff. destruct (s_nd o) eqn:en; [|reflexivity]. apply h4. reflexivity.
  Qed.
  Lemma included_shown c e only k v : included o (hides cls o c e) only k v = true ->
    ~ In k e /\ ~ In k (so_hidden (cls c)) /\ (s_noro o = true -> ~ In k (so_readOnly (cls c))) /\ (s_nd o = true -> v <> SNull) /\ (only = [] \/ In k only).
  Proof.
    unfold included. rewrite !andb_true_iff. intros [[h1 h2] h3]. apply negb_true_iff, mem_not_In in h1. unfold hides in h1. rewrite !in_app_iff in h1.
    split; [tauto|]. split; [tauto|]. split; [|split].
    - intros hr. rewrite hr in h1. tauto.
    - intros hn. rewrite hn in h3. intros ->. discriminate.
    - destruct only; [auto|]. right. apply (mem_In EqDec_string), h2.
  Qed.
  Lemma keeps_default c e only k v : keeps c e only k v = true -> s_nd o = true -> so_default (cls c) k v = false.
  Proof. unfold keeps. rewrite andb_true_iff. intros [_ h] hn. rewrite hn in h. cbn in h. apply negb_true_iff in h. exact h. Qed.
End P.
