From Coq Require Import Lia.
From Verif Require Import Nev_Model Nev_Spec.

Scheme Converted_m := Minimality for Converted Sort Prop
  with ConvProps_m := Minimality for ConvProps Sort Prop with ConvElems_m := Minimality for ConvElems Sort Prop.
Combined Scheme Converted_mut from Converted_m, ConvProps_m, ConvElems_m.
Scheme Checked_m := Minimality for Checked Sort Prop
  with CheckedProps_m := Minimality for CheckedProps Sort Prop with CheckedElems_m := Minimality for CheckedElems Sort Prop.
Combined Scheme Checked_mut from Checked_m, CheckedProps_m, CheckedElems_m.

Ltac rinv h := match type of h with rbind ?r _ = _ => destruct r eqn:?; cbn [rbind] in h; [|discriminate h] end.

Ltac runit h := match type of h with rbind ?r _ = _ => destruct r as [[]|] eqn:?; cbn [rbind] in h; [|discriminate h] end.

Lemma is_null_spec v : is_null v = true <-> v = VNone.
Proof. destruct v; cbn; split; congruence. Qed.
Lemma is_null_false v : is_null v = false <-> v <> VNone.
Proof. destruct v; cbn; split; congruence. Qed.

Lemma find_split {A} (f : A -> bool) l x : find f l = Some x <-> exists l1 l2, l = l1 ++ x :: l2 /\ (forall q, In q l1 -> f q = false) /\ f x = true.
Proof.
  split.
  - induction l as [|y l IH]; cbn [find]; [discriminate|]. destruct (f y) eqn:e.
    + intros h. injection h as <-. exists [], l. repeat split; auto. intros q [].
    + intros h. destruct (IH h) as (l1 & l2 & -> & h1 & h2). exists (y :: l1), l2. repeat split; auto. intros q [<-|i]; auto.
  - intros (l1 & l2 & -> & h1 & h2). induction l1 as [|y l1 IH]; cbn [app find]; [rewrite h2; reflexivity|].
    rewrite (h1 y (or_introl eq_refl)). apply IH. intros q i. apply h1. right. exact i.
Qed.
Lemma find_none_iff {A} (f : A -> bool) l : find f l = None <-> forall q, In q l -> f q = false.
Proof.
  induction l as [|y l IH]; cbn [find]; [split; [intros _ q []|reflexivity]|]. destruct (f y) eqn:e.
  - split; [discriminate|]. intros h. rewrite (h y (or_introl eq_refl)) in e. discriminate.
  - rewrite IH. split; [intros h q [<-|i]; auto|]. intros h q i. apply h. right. exact i.
Qed.
Lemma prop_type_spec o k t : prop_type o k = Ok t <-> PropType o k t.
Proof.
  unfold prop_type. split.
  - destruct (dget k (o_props o)) as [u|] eqn:e; [intros h; injection h as <-; apply pt_declared; exact e|].
    destruct (find (fun p => fst p k) (o_pats o)) as [[p u]|] eqn:f.
    + cbn [snd]. intros h. injection h as <-. apply find_split in f. destruct f as (l1 & l2 & e1 & h1 & h2). eapply pt_pattern; eauto.
    + rewrite find_none_iff in f. destruct (o_add o) as [u|] eqn:ea; [|discriminate]. intros h. injection h as <-. apply pt_additional; auto.
  - intros [u h|l1 p u l2 h1 h2 h3 h4|u h1 h2 h3].
    + rewrite h. reflexivity.
    + rewrite h1. assert (f : find (fun p => fst p k) (o_pats o) = Some (p, u)); [|rewrite f; reflexivity].
      apply find_split. exists l1, l2. auto.
    + rewrite h1. rewrite (proj2 (find_none_iff _ _) h2), h3. reflexivity.
Qed.
Lemma prop_type_fun o k t u : PropType o k t -> PropType o k u -> t = u.
Proof. rewrite <- !prop_type_spec. congruence. Qed.
Lemma prop_type_err o k e : prop_type o k = Err e -> e = KeyError /\ forall t, ~ PropType o k t.
Proof.
  intros h. split; [|intros t ht; apply prop_type_spec in ht; congruence]. revert h. unfold prop_type.
  destruct (dget k (o_props o)); [discriminate|]. destruct (find _ _); [discriminate|]. destruct (o_add o); [discriminate|]. congruence.
Qed.
Lemma elem_type_spec a i t : elem_type a i = Ok t <-> ElemType a i t.
Proof.
  unfold elem_type. split.
  - destruct (a_items a) as [u|l] eqn:e; [intros h; injection h as <-; apply et_all; exact e|].
    destruct (nth_error l i) as [u|] eqn:n; [|discriminate]. intros h. injection h as <-. eapply et_listed; eassumption.
  - intros [u h|l u h1 h2]; [rewrite h|rewrite h1, h2]; reflexivity.
Qed.
Lemma elem_type_fun a i t u : ElemType a i t -> ElemType a i u -> t = u.
Proof. rewrite <- !elem_type_spec. congruence. Qed.
Lemma elem_type_err a i e : elem_type a i = Err e -> e = IndexError /\ forall t, ~ ElemType a i t.
Proof.
  intros h. split; [|intros t ht; apply elem_type_spec in ht; congruence]. revert h. unfold elem_type.
  destruct (a_items a); [discriminate|]. destruct (nth_error _ _); [discriminate|]. congruence.
Qed.
Lemma elem_type_none a i : (forall t, ~ ElemType a i t) -> elem_type a i = Err IndexError.
Proof.
  intros h. destruct (elem_type a i) as [t|e] eqn:q; [destruct (h t); apply elem_type_spec; exact q|].
  destruct (elem_type_err _ _ _ q) as [-> _]. reflexivity.
Qed.
Lemma reorder_arranged req l : reorder req l = arranged req l.
Proof. reflexivity. Qed.
Lemma types_of_named o l ts : types_of o l = Ok ts -> Forall2 (fun kv t => PropType o (fst kv) t) l ts.
Proof.
  revert ts. induction l as [|[k v] l IH]; intros ts h; cbn [types_of] in h; [injection h as <-; constructor|].
  rinv h. rinv h. injection h as <-. constructor; [apply prop_type_spec; assumption|apply IH; reflexivity].
Qed.
Lemma named_types_of o l : Named o l -> exists ts, types_of o l = Ok ts.
Proof.
  induction l as [|[k v] l IH]; intros h; cbn [types_of]; [eauto|].
  destruct (h k) as (t & ht); [left; reflexivity|]. apply prop_type_spec in ht. rewrite ht.
  destruct IH as (ts & ->); [intros k' i; apply h; right; exact i|]. cbn. eauto.
Qed.
Lemma F2_named o l ts : Forall2 (fun (kv : string * pyval) t => PropType o (fst kv) t) l ts -> Named o l.
Proof. induction 1 as [|[k v] t l ts h f IH]; intros k' i; [destruct i|]. destruct i as [<-|i]; [eauto|apply IH; exact i]. Qed.

Section Nested.
  Variable tys : nat -> node.

  Lemma conv_props_sound f o : (forall t v w, f t v = Ok w -> Converted tys t v w) ->
    forall l ts l', Forall2 (fun kv t => PropType o (fst kv) t) l ts -> conv_props f ts l = Ok l' -> ConvProps tys o l l'.
  Proof.
    intros hf l ts l' h. revert l'. induction h as [|[k v] t l ts h f2 IH]; intros l' e; cbn [conv_props] in e.
    - injection e as <-. constructor.
    - rinv e. rinv e. injection e as <-. destruct (is_null v) eqn:en.
      + apply is_null_spec in en. subst v. injection Heqr as <-. apply cp_null. apply IH. reflexivity.
      + apply is_null_false in en. eapply cp_cons; [exact en|exact h|apply hf; exact Heqr|apply IH; reflexivity].
  Qed.
  Lemma conv_elems_sound f a : (forall t v w, f t v = Ok w -> Converted tys t v w) ->
    forall l i l', conv_elems f a i l = Ok l' -> ConvElems tys a i l l'.
  Proof.
    intros hf l. induction l as [|v l IH]; intros i l' e; cbn [conv_elems] in e; [injection e as <-; constructor|].
    rinv e. rinv e. injection e as <-. destruct (is_null v) eqn:en.
    - apply is_null_spec in en. subst v. injection Heqr as <-. apply ce_null. apply IH. assumption.
    - apply is_null_false in en. destruct (elem_type a i) as [t|x] eqn:et.
      + eapply ce_cons; [exact en|apply elem_type_spec; exact et|apply hf; exact Heqr|apply IH; assumption].
      + injection Heqr as <-. apply ce_extra; [exact en|exact (proj2 (elem_type_err _ _ _ et))|apply IH; assumption].
  Qed.
  Lemma convert_sound n : forall t v w, convert tys n t v = Ok w -> Converted tys t v w.
  Proof.
    induction n as [|n IH]; intros t v w h; cbn [convert] in h; [discriminate|]. destruct (tys t) as [s|o|a] eqn:et.
    - eapply conv_scal; eassumption.
    - rinv h. rinv h. rinv h. injection h as <-. rewrite reorder_arranged. pose proof (types_of_named _ _ _ Heqr0) as f2.
      eapply conv_obj; [exact et|exact Heqr|exact (F2_named _ _ _ f2)|]. eapply conv_props_sound; eassumption.
    - rinv h. rinv h. injection h as <-. eapply (conv_arr tys t a); [exact et|exact Heqr|]. eapply conv_elems_sound; eassumption.
  Qed.
  Lemma convert_complete :
    (forall t v w, Converted tys t v w -> exists N, forall n, N <= n -> convert tys n t v = Ok w) /\
    (forall o l l', ConvProps tys o l l' -> forall ts, types_of o l = Ok ts -> exists N, forall n, N <= n -> conv_props (convert tys n) ts l = Ok l') /\
    (forall a i l l', ConvElems tys a i l l' -> exists N, forall n, N <= n -> conv_elems (convert tys n) a i l = Ok l').
  Proof.
    apply Converted_mut.
    - intros t s v w e h. exists 1. intros [|n] g; [lia|]. cbn [convert]. rewrite e. exact h.
    - intros t o v l l' e hl hn hc IH. destruct (named_types_of o l hn) as (ts & ht). destruct (IH ts ht) as (N & hN).
      exists (S N). intros [|n] g; [lia|]. cbn [convert]. rewrite e, hl. cbn [rbind]. rewrite ht. cbn [rbind]. rewrite hN by lia. reflexivity.
    - intros t a v l l' e hl hc (N & hN). exists (S N). intros [|n] g; [lia|]. cbn [convert]. rewrite e, hl. cbn [rbind]. rewrite hN by lia. reflexivity.
    - intros o ts h. cbn in h. injection h as <-. exists 0. reflexivity.
    - intros o k l l' hc IH ts h. cbn [types_of] in h. rinv h. rinv h. injection h as <-. destruct (IH _ eq_refl) as (N & hN).
      exists N. intros n g. cbn [conv_props is_null rbind]. rewrite hN by lia. reflexivity.
    - intros o k v t w l l' nv hp hc (N1 & h1) hcs IH ts h. cbn [types_of] in h. apply prop_type_spec in hp. rewrite hp in h. cbn [rbind] in h.
      rinv h. injection h as <-. destruct (IH _ eq_refl) as (N2 & h2). exists (N1 + N2). intros n g. cbn [conv_props].
      rewrite (proj2 (is_null_false v) nv), h1 by lia. cbn [rbind]. rewrite h2 by lia. reflexivity.
    - intros a i. exists 0. reflexivity.
    - intros a i l l' hc (N & hN). exists N. intros n g. cbn [conv_elems is_null rbind]. rewrite hN by lia. reflexivity.
    - intros a i v t w l l' nv hp hc (N1 & h1) hcs (N2 & h2). exists (N1 + N2). intros n g. cbn [conv_elems].
      apply elem_type_spec in hp. rewrite (proj2 (is_null_false v) nv), hp, h1 by lia. cbn [rbind]. rewrite h2 by lia. reflexivity.
    - intros a i v l l' nv hn hcs (N & hN). exists N. intros n g. cbn [conv_elems].
      rewrite (proj2 (is_null_false v) nv), (elem_type_none a i hn). cbn [rbind]. rewrite hN by lia. reflexivity.
  Qed.

  (** ** validation *)
  Lemma validate_obj_good n excl t o l : tys t = NObj o -> validate tys (S n) excl t (VDict l) = Ok tt -> GoodObj o l.
  Proof.
    intros e h. cbn [validate] in h. rewrite e in h. destruct (existsb _ _ && _)%bool; [discriminate|].
    destruct (forallb (fun k => dmem k l) (o_req o)) eqn:f; [|discriminate]. cbn [negb] in h. runit h. split; [|assumption].
    intros k i. rewrite forallb_forall in f. apply dmem_In. apply f. exact i.
  Qed.
  Lemma validate_arr_good n excl t a v l : tys t = NArr a -> v = VList l \/ v = VTup l -> validate tys (S n) excl t v = Ok tt -> GoodArr a v l.
  Proof.
    intros e hv h. assert (q : (do _ <- a_js a v; if (a_unique a && negb (forallb Query_Model.hashable l))%bool then Err TypeError
                else val_elems (validate tys n (excl ++ a_excl)) a 0 l) = Ok tt).
    { rewrite <- h. cbn [validate]. rewrite e. destruct hv as [-> | ->]; reflexivity. }
    runit q. split; [assumption|]. intros hu x i. rewrite hu in q. cbn [andb] in q.
    destruct (forallb Query_Model.hashable l) eqn:f; [|discriminate]. rewrite forallb_forall in f. apply f. exact i.
  Qed.

  (** ** evaluation without conversion *)
  Lemma fill_props_sound f o : (forall t v w, f t v = Ok w -> Checked tys t v w) ->
    forall l l', fill_props f o l = Ok l' -> CheckedProps tys o l l'.
  Proof.
    intros hf l. induction l as [|[k v] l IH]; intros l' h; cbn [fill_props] in h; [injection h as <-; constructor|].
    rinv h. rinv h. rinv h. injection h as <-. eapply ckp_cons; [apply prop_type_spec; eassumption|apply hf; assumption|apply IH; reflexivity].
  Qed.
  Lemma fill_elems_sound f a : (forall t v w, f t v = Ok w -> Checked tys t v w) ->
    forall l i l', fill_elems f a i l = Ok l' -> CheckedElems tys a i l l'.
  Proof.
    intros hf l. induction l as [|v l IH]; intros i l' h; cbn [fill_elems] in h; [injection h as <-; constructor|].
    rinv h. rinv h. rinv h. injection h as <-. eapply cke_cons; [apply elem_type_spec; eassumption|apply hf; assumption|apply IH; assumption].
  Qed.
  (** [fill] on a value that is not null *)
  Definition fill_value (n : nat) (t : nat) (v : pyval) : res pyval :=
    match tys t, v with
    | NScal s, _ => do _ <- sc_val s v; Ok v
    | NObj o, VDict l => do l' <- fill_props (fill tys n) o l; do _ <- validate tys n [] t (VDict l'); Ok (VDict l')
    | NArr a, VList l => do l' <- fill_elems (fill tys n) a 0 l; do _ <- validate tys n [] t (VList l'); Ok (VList l')
    | NArr a, VTup l =>
        match l with
        | [] => do _ <- validate tys n [] t (VTup []); Ok (VTup [])
        | v1 :: _ => do t1 <- elem_type a 0; do _ <- fill tys n t1 v1; Err TypeError
        end
    | _, _ => Err TypeError
    end.
  Lemma fill_S n t v : fill tys (S n) t v =
    let v' := if is_null v then default_of tys t else v in if is_null v' then Ok VNone else fill_value n t v'.
  Proof. cbn [fill]. cbn zeta. destruct (if is_null v then default_of tys t else v); reflexivity. Qed.
  Lemma fill_value_sound n t v w : (forall t v w, fill tys n t v = Ok w -> Checked tys t v w) ->
    v <> VNone -> fill_value n t v = Ok w -> Checked tys t v w.
  Proof.
    intros IH nv h. unfold fill_value in h. destruct (tys t) as [s|o|a] eqn:et.
    - runit h. injection h as <-. eapply ck_scal; eassumption.
    - destruct v; try discriminate h. rinv h. runit h. injection h as <-.
      destruct n as [|n]; [discriminate|]. eapply ck_obj; [exact et|eapply fill_props_sound; eassumption|eapply validate_obj_good; eassumption].
    - destruct v; try discriminate h.
      + rinv h. runit h. injection h as <-. destruct n as [|n]; [discriminate|].
        eapply ck_arr; [exact et|eapply fill_elems_sound; eassumption|eapply validate_arr_good; eauto].
      + destruct l as [|v1 l]; [|rinv h; rinv h; discriminate]. runit h. injection h as <-. destruct n as [|n]; [discriminate|].
        eapply ck_tuple; [exact et|]. eapply (validate_arr_good n [] t a (VTup []) []); eauto.
  Qed.
  Lemma fill_sound n : forall t v w, fill tys n t v = Ok w -> Checked tys t v w.
  Proof.
    induction n as [|n IH]; intros t v w h; [discriminate|]. rewrite fill_S in h. cbn zeta in h. destruct (is_null v) eqn:en.
    - apply is_null_spec in en. subst v. destruct (is_null (default_of tys t)) eqn:ed.
      + apply is_null_spec in ed. injection h as <-. apply ck_null. exact ed.
      + apply is_null_false in ed. eapply ck_default; [reflexivity|exact ed|]. eapply fill_value_sound; eassumption.
    - rewrite en in h. apply is_null_false in en. eapply fill_value_sound; eassumption.
  Qed.

  (** what is checked is valid, whatever is left out *)
  Lemma checked_validates :
    (forall t v w, Checked tys t v w -> w <> VNone -> exists N, forall n excl, N <= n -> validate tys n excl t w = Ok tt) /\
    (forall o l l', CheckedProps tys o l l' -> Named o l' /\ dkeys l' = dkeys l /\
       exists N, forall n excl, N <= n -> val_props (validate tys n excl) o excl l' = Ok tt) /\
    (forall a i l l', CheckedElems tys a i l l' -> exists N, forall n excl, N <= n -> val_elems (validate tys n excl) a i l' = Ok tt).
  Proof.
    apply Checked_mut.
    - congruence.
    - auto.
    - intros t s v nv et h _. exists 1. intros [|n] excl g; [lia|]. cbn [validate]. rewrite et. exact h.
    - intros t o l l' et hc (hn & _ & N & hN) (hr & hj) _. exists (S N). intros [|n] excl g; [lia|]. cbn [validate]. rewrite et.
      replace (existsb (undeclared o) (dkeys l') && match o_add o with Some _ => false | None => true end)%bool with false.
      + replace (forallb (fun k => dmem k l') (o_req o)) with true; [|symmetry; apply forallb_forall; intros k i; apply dmem_In; apply hr; exact i].
        cbn [negb]. rewrite hj. cbn [rbind]. apply hN. lia.
      + symmetry. destruct (o_add o) eqn:ea; [apply andb_false_r|]. rewrite andb_true_r. destruct (existsb (undeclared o) (dkeys l')) eqn:ex; [|reflexivity].
        apply existsb_exists in ex. destruct ex as (k & i & u). destruct (hn k i) as (u1 & hp). unfold undeclared in u.
        destruct hp as [u1 h1|l1 p u1 l2 h1 h2 h3 h4|u1 h1 h2 h3]; [rewrite h1 in u; discriminate| |congruence].
        rewrite h1, h2 in u. apply negb_true_iff in u. rewrite existsb_app in u. cbn [existsb fst] in u. rewrite h4 in u. cbn in u.
        rewrite orb_true_r in u. discriminate.
    - intros t a l l' et hc (N & hN) (hj & hu) _. exists (S N). intros [|n] excl g; [lia|]. cbn [validate]. rewrite et, hj. cbn [rbind].
      replace (a_unique a && negb (forallb Query_Model.hashable l'))%bool with false; [apply hN; lia|].
      symmetry. destruct (a_unique a); [|reflexivity]. cbn [andb]. apply negb_false_iff, forallb_forall. apply hu. reflexivity.
    - intros t a et hj _. exists 1. intros [|n] excl g; [lia|]. cbn [validate]. rewrite et, hj. cbn. rewrite andb_false_r. reflexivity.
    - intros o. split; [intros k []|]. split; [reflexivity|]. exists 0. reflexivity.
    - intros o k v t w l l' hp hc IH hcs (hn & hk & N & hN). split; [|split].
      + intros k' [<-|i]; [eauto|apply hn; exact i].
      + cbn [dkeys map fst]. unfold dkeys in hk. cbn. f_equal. exact hk.
      + apply prop_type_spec in hp. destruct (is_null w) eqn:ew.
        * exists N. intros n excl g. cbn [val_props]. rewrite hp, ew, orb_true_r. cbn [rbind]. apply hN. exact g.
        * destruct (IH (proj1 (is_null_false w) ew)) as (N1 & h1). exists (N + N1). intros n excl g. cbn [val_props]. rewrite hp, ew. cbn [rbind].
          rewrite orb_false_r. destruct (mem k excl); [cbn [rbind]; apply hN; lia|]. rewrite h1 by lia. cbn [rbind]. apply hN. lia.
    - intros a i. exists 0. reflexivity.
    - intros a i v t w l l' hp hc IH hcs (N & hN). apply elem_type_spec in hp. destruct (is_null w) eqn:ew.
      + exists N. intros n excl g. cbn [val_elems]. rewrite ew. cbn [rbind]. apply hN. exact g.
      + destruct (IH (proj1 (is_null_false w) ew)) as (N1 & h1). exists (N + N1). intros n excl g. cbn [val_elems]. rewrite ew, hp, h1 by lia.
        cbn [rbind]. apply hN. lia.
  Qed.
  Lemma fill_complete :
    (forall t v w, Checked tys t v w -> (exists N, forall n, N <= n -> fill tys n t v = Ok w) /\ (v <> VNone -> w <> VNone)) /\
    (forall o l l', CheckedProps tys o l l' -> exists N, forall n, N <= n -> fill_props (fill tys n) o l = Ok l') /\
    (forall a i l l', CheckedElems tys a i l l' -> exists N, forall n, N <= n -> fill_elems (fill tys n) a i l = Ok l').
  Proof.
    apply Checked_mut.
    - intros t e. split; [|congruence]. exists 1. intros [|n] g; [lia|]. rewrite fill_S. cbn [is_null]. cbn zeta. rewrite e. reflexivity.
    - intros t d w e nd hc ((N & hN) & _). split; [|congruence]. exists (S N). intros [|n] g; [lia|]. rewrite <- (hN (S n)) by lia.
      rewrite !fill_S. cbn [is_null]. cbn zeta. rewrite e, !(proj2 (is_null_false d) nd). reflexivity.
    - intros t s v nv et h. split; [|auto]. exists 1. intros [|n] g; [lia|]. rewrite fill_S. rewrite (proj2 (is_null_false v) nv). cbn zeta.
      rewrite (proj2 (is_null_false v) nv). unfold fill_value. rewrite et, h. reflexivity.
    - intros t o l l' et hc (N & hN) hg. split; [|discriminate].
      destruct (proj1 checked_validates t (VDict l) (VDict l')) as (N1 & h1); [eapply ck_obj; eassumption|discriminate|].
      exists (S (N + N1)). intros [|n] g; [lia|]. rewrite fill_S. cbn [is_null]. cbn zeta. cbn [is_null]. unfold fill_value. rewrite et, hN by lia. cbn [rbind].
      rewrite h1 by lia. reflexivity.
    - intros t a l l' et hc (N & hN) hg. split; [|discriminate].
      destruct (proj1 checked_validates t (VList l) (VList l')) as (N1 & h1); [eapply ck_arr; eassumption|discriminate|].
      exists (S (N + N1)). intros [|n] g; [lia|]. rewrite fill_S. cbn [is_null]. cbn zeta. cbn [is_null]. unfold fill_value. rewrite et, hN by lia. cbn [rbind].
      rewrite h1 by lia. reflexivity.
    - intros t a et hj. split; [|discriminate].
      destruct (proj1 checked_validates t (VTup []) (VTup [])) as (N1 & h1); [eapply ck_tuple; eassumption|discriminate|].
      exists (S N1). intros [|n] g; [lia|]. rewrite fill_S. cbn [is_null]. cbn zeta. cbn [is_null]. unfold fill_value. rewrite et, h1 by lia. reflexivity.
    - intros o. exists 0. reflexivity.
    - intros o k v t w l l' hp hc ((N1 & h1) & _) hcs (N & hN). apply prop_type_spec in hp. exists (N + N1). intros n g. cbn [fill_props].
      rewrite hp. cbn [rbind]. rewrite h1 by lia. cbn [rbind]. rewrite hN by lia. reflexivity.
    - intros a i. exists 0. reflexivity.
    - intros a i v t w l l' hp hc ((N1 & h1) & _) hcs (N & hN). apply elem_type_spec in hp. exists (N + N1). intros n g. cbn [fill_elems].
      rewrite hp. cbn [rbind]. rewrite h1 by lia. cbn [rbind]. rewrite hN by lia. reflexivity.
  Qed.
  Lemma checked_fun t v w w' : Checked tys t v w -> Checked tys t v w' -> w = w'.
  Proof.
    intros h h'. destruct (proj1 fill_complete _ _ _ h) as ((N & hN) & _). destruct (proj1 fill_complete _ _ _ h') as ((M & hM) & _).
    specialize (hN (N + M) ltac:(lia)). specialize (hM (N + M) ltac:(lia)). congruence.
  Qed.
End Nested.
