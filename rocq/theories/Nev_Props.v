(** C67: evaluating nested values *)
From Coq Require Import Lia.
From Verif Require Import Nev_Model Nev_Spec Nev_Proofs.

(** ** the depth allowed does not change the outcome *)
Definition Below {A} (r r' : res A) : Prop := r <> Err RecursionError -> r' = r.
Lemma below_bind {A B} (r r' : res A) (f f' : A -> res B) : Below r r' -> (forall x, Below (f x) (f' x)) -> Below (rbind r f) (rbind r' f').
Proof.
  intros h1 h2 ne. destruct r as [x|e].
  - rewrite h1 by discriminate. cbn [rbind] in *. apply h2. exact ne.
  - rewrite h1 by (intros q; apply ne; cbn [rbind]; congruence). reflexivity.
Qed.
Lemma below_refl {A} (r : res A) : Below r r.
Proof. intros _. reflexivity. Qed.
#[local] Hint Resolve below_refl : core.
Ltac below := repeat first [apply below_refl | apply below_bind; [|intros ?] | match goal with |- context [if ?b then _ else _] => destruct b end | match goal with |- context [match ?x with Ok _ => _ | Err _ => _ end] => destruct x end].
Lemma convert_below tys n : forall t v, Below (convert tys n t v) (convert tys (S n) t v).
Proof.
  induction n as [|n IH]; intros t v; [intros h; destruct (h eq_refl)|].
  remember (S n) as m eqn:em. cbn [convert]. rewrite em at 1. cbn [convert].
  destruct (tys t) as [s|o|a]; [apply below_refl| |].
  - apply below_bind; [apply below_refl|]. intros l. apply below_bind; [apply below_refl|]. intros ts. apply below_bind; [|intros; apply below_refl].
    revert ts. induction l as [|[k x] l IHl]; intros [|u ts]; cbn [conv_props]; try apply below_refl.
    apply below_bind; [destruct (is_null x); [apply below_refl|apply IH]|]. intros w. apply below_bind; [apply IHl|]. intros; apply below_refl.
  - apply below_bind; [apply below_refl|]. intros l. apply below_bind; [|intros; apply below_refl].
    generalize 0. induction l as [|x l IHl]; intros i; cbn [conv_elems]; [apply below_refl|].
    apply below_bind; [destruct (is_null x); [apply below_refl|destruct (elem_type a i); [apply IH|apply below_refl]]|].
    intros w. apply below_bind; [apply IHl|]. intros; apply below_refl.
Qed.
Lemma validate_below tys n : forall excl t v, Below (validate tys n excl t v) (validate tys (S n) excl t v).
Proof.
  induction n as [|n IH]; intros excl t v; [intros h; destruct (h eq_refl)|].
  remember (S n) as m eqn:em. cbn [validate]. rewrite em at 1. cbn [validate].
  destruct (tys t) as [s|o|a]; [apply below_refl| |].
  - destruct v; try apply below_refl. destruct (existsb _ _ && _)%bool; [apply below_refl|]. destruct (negb _); [apply below_refl|].
    apply below_bind; [apply below_refl|]. intros _. induction l as [|[k x] l IHl]; cbn [val_props]; [apply below_refl|].
    apply below_bind; [apply below_refl|]. intros u. apply below_bind; [destruct (_ || _)%bool; [apply below_refl|subst m; apply IH]|]. intros _. exact IHl.
  - assert (E : forall l i, Below (val_elems (validate tys n (excl ++ a_excl)) a i l) (val_elems (validate tys m (excl ++ a_excl)) a i l)).
    { induction l as [|x l IHl]; intros i; cbn [val_elems]; [apply below_refl|].
      apply below_bind; [destruct (is_null x); [apply below_refl|destruct (elem_type a i); [subst m; apply IH|apply below_refl]]|]. intros _. apply IHl. }
    destruct v; try apply below_refl; (apply below_bind; [apply below_refl|]; intros _; destruct (_ && _)%bool; [apply below_refl|apply E]).
Qed.
Lemma fill_below tys n : forall t v, Below (fill tys n t v) (fill tys (S n) t v).
Proof.
  induction n as [|n IH]; intros t v; [intros h; destruct (h eq_refl)|].
  rewrite (fill_S tys (S n)), (fill_S tys n). cbn zeta. generalize (if is_null v then default_of tys t else v). clear v. intros v.
  destruct (is_null v); [apply below_refl|]. unfold fill_value. destruct (tys t) as [s|o|a]; [apply below_refl| |].
  - destruct v; try apply below_refl. apply below_bind.
    + induction l as [|[k x] l IHl]; cbn [fill_props]; [apply below_refl|]. apply below_bind; [apply below_refl|]. intros u.
      apply below_bind; [apply IH|]. intros w. apply below_bind; [exact IHl|]. intros; apply below_refl.
    + intros l'. apply below_bind; [apply validate_below|]. intros; apply below_refl.
  - destruct v; try apply below_refl.
    + apply below_bind.
      * generalize 0. induction l as [|x l IHl]; intros i; cbn [fill_elems]; [apply below_refl|]. apply below_bind; [apply below_refl|]. intros u.
        apply below_bind; [apply IH|]. intros w. apply below_bind; [apply IHl|]. intros; apply below_refl.
      * intros l'. apply below_bind; [apply validate_below|]. intros; apply below_refl.
    + destruct l as [|v1 l].
      * apply below_bind; [apply validate_below|]. intros; apply below_refl.
      * apply below_bind; [apply below_refl|]. intros u. apply below_bind; [apply IH|]. intros; apply below_refl.
Qed.
Lemma evaluate_alt tys n t v : evaluate tys n t v =
  let v' := if is_null v then default_of tys t else v in if is_null v' then Ok VNone else do w <- convert tys n t v'; fill tys n t w.
Proof. unfold evaluate. cbn zeta. destruct (if is_null v then default_of tys t else v); reflexivity. Qed.
Theorem evaluate_limit : forall tys n m t v, n <= m -> evaluate tys n t v <> Err RecursionError -> evaluate tys m t v = evaluate tys n t v.
Proof.
  intros tys n m t v h. induction h as [|m h IH]; intros ne; [reflexivity|]. rewrite <- (IH ne). rewrite <- (IH ne) in ne. clear IH h. revert ne.
  change (Below (evaluate tys m t v) (evaluate tys (S m) t v)). rewrite !evaluate_alt. cbn zeta.
  generalize (if is_null v then default_of tys t else v). clear v. intros v. destruct (is_null v); [apply below_refl|].
  apply below_bind; [apply convert_below|]. intros w. apply fill_below.
Qed.
Print Assumptions evaluate_limit.

(** ** what evaluation computes *)
Theorem evaluate_iff : forall tys t v w, (exists n, evaluate tys n t v = Ok w) <-> Evaluated tys t v w.
Proof.
  intros tys t v w. split.
  - intros (n & h). rewrite evaluate_alt in h. cbn zeta in h. destruct (is_null v) eqn:en.
    + apply is_null_spec in en. subst v. destruct (is_null (default_of tys t)) eqn:ed.
      * injection h as <-. apply ev_null. apply is_null_spec. exact ed.
      * rinv h. eapply ev_default; [reflexivity|apply is_null_false; exact ed|eapply convert_sound; eassumption|eapply fill_sound; eassumption].
    + rewrite en in h. rinv h. eapply ev_value; [apply is_null_false; exact en|eapply convert_sound; eassumption|eapply fill_sound; eassumption].
  - intros [e|d w1 w' e nd h1 h2|v' w1 w' nv h1 h2].
    + exists 0. rewrite evaluate_alt. cbn. rewrite e. reflexivity.
    + destruct (proj1 (convert_complete tys) _ _ _ h1) as (N & hN). destruct (proj1 (fill_complete tys) _ _ _ h2) as ((M & hM) & _).
      exists (N + M). rewrite evaluate_alt. cbn [is_null]. cbn zeta. rewrite e, (proj2 (is_null_false d) nd), hN by lia. cbn [rbind]. apply hM. lia.
    + destruct (proj1 (convert_complete tys) _ _ _ h1) as (N & hN). destruct (proj1 (fill_complete tys) _ _ _ h2) as ((M & hM) & _).
      exists (N + M). rewrite evaluate_alt. rewrite (proj2 (is_null_false v') nv). cbn zeta. rewrite (proj2 (is_null_false v') nv), hN by lia. cbn [rbind]. apply hM. lia.
Qed.
Print Assumptions evaluate_iff.
(** an outcome other than Python's recursion limit is final: an error means that there is no value *)
Theorem evaluate_fails : forall tys n t v e, evaluate tys n t v = Err e -> e <> RecursionError -> forall w, ~ Evaluated tys t v w.
Proof.
  intros tys n t v e h ne w hw. apply evaluate_iff in hw. destruct hw as (m & hm).
  assert (q1 : evaluate tys (n + m) t v = Err e) by (rewrite (evaluate_limit tys n); [exact h|lia|congruence]).
  assert (q2 : evaluate tys (n + m) t v = Ok w) by (rewrite (evaluate_limit tys m); [exact hm|lia|congruence]). congruence.
Qed.
Print Assumptions evaluate_fails.
(** validating the result again never fails, whatever keywords are left out *)
Theorem evaluated_valid : forall tys t v w, Evaluated tys t v w -> w <> VNone -> exists N, forall n excl, N <= n -> validate tys n excl t w = Ok tt.
Proof.
  intros tys t v w h nw. destruct h as [e|d w1 w' e nd h1 h2|v' w1 w' nv h1 h2]; [congruence| |]; eapply (proj1 (checked_validates tys)); eassumption.
Qed.
Print Assumptions evaluated_valid.

(** ** idempotence *)
Section Idem.
  Variable tys : nat -> node.
  (** converting a scalar again changes nothing, and defaults are given converted *)
  Definition StableScalars : Prop := forall t s v w, tys t = NScal s -> sc_conv s v = Ok w -> w <> VNone -> sc_conv s w = Ok w.
  Definition ConvertedDefaults : Prop := forall t, default_of tys t <> VNone -> Converted tys t (default_of tys t) (default_of tys t).
  Definition RequiredOnce : Prop := forall t o, tys t = NObj o -> NoDup (o_req o).
  Hypothesis stable : StableScalars.
  Hypothesis defaults : ConvertedDefaults.
  Hypothesis once : RequiredOnce.

  Lemma dget_map_keys {B} (f : string -> B) req k : dget k (map (fun k => (k, f k)) req) = if in_dec eq_dec k req then Some (f k) else None.
  Proof.
    induction req as [|k' req IH]; cbn [map dget]; [reflexivity|]. destruct (eq_dec k k') as [->|ne].
    - destruct (in_dec eq_dec k' (k' :: req)) as [_|n]; [reflexivity|]. destruct n. left. reflexivity.
    - rewrite IH. destruct (in_dec eq_dec k req) as [i|n]; destruct (in_dec eq_dec k (k' :: req)) as [i'|n']; try reflexivity.
      + destruct n'. right. exact i.
      + destruct i' as [e|i']; [congruence|contradiction].
  Qed.
  Lemma arranged_fix req l1 l2 : NoDup req -> dkeys l1 = req -> (forall k, In k (dkeys l2) -> ~ In k req) -> arranged req (l1 ++ l2) = l1 ++ l2.
  Proof.
    intros nd e h. unfold arranged. f_equal.
    - assert (G : forall r m, incl r (dkeys m) -> NoDup (dkeys m) -> forall l, dkeys l = r -> (forall kv, In kv l -> In kv m) ->
        map (fun k => (k, match dget k (m ++ l2) with Some v => v | None => VNone end)) r = l).
      { intros r m hi ndm l hl hs. revert r hl hi. induction l as [|[k v] l IHl]; intros r hl hi; cbn in hl; subst r; [reflexivity|]. cbn [map].
        f_equal.
        - f_equal. assert (q : dget k (m ++ l2) = Some v); [|rewrite q; reflexivity]. assert (i : In (k, v) m) by (apply hs; left; reflexivity).
          clear -i ndm. induction m as [|[k' v'] m IHm]; [destruct i|]. cbn [app dget]. cbn [dkeys map fst] in ndm. apply NoDup_cons_iff in ndm. destruct ndm as [n1 n2].
          destruct i as [i|i]; [injection i as <- <-; destruct (eq_dec k' k') as [_|n]; [reflexivity|congruence]|].
          destruct (eq_dec k k') as [->|ne]; [destruct n1; apply (in_map fst) in i; exact i|apply IHm; assumption].
        - apply IHl; [intros kv i; apply hs; right; exact i|reflexivity|]. intros x i. apply hi. right. exact i. }
      apply (G req l1); [rewrite e; apply incl_refl|rewrite e; exact nd|exact e|auto].
    - rewrite filter_app.
      assert (F1 : forall l, (forall k, In k (dkeys l) -> In k req) -> filter (fun kv : string * pyval => negb (mem (fst kv) req)) l = []).
      { induction l as [|[k v] l IHl]; intros g; [reflexivity|]. cbn [filter fst]. rewrite (proj2 (mem_In _ _ _) (g k (or_introl eq_refl))). cbn [negb].
        apply IHl. intros x i. apply g. right. exact i. }
      assert (F2 : forall l, (forall k, In k (dkeys l) -> ~ In k req) -> filter (fun kv : string * pyval => negb (mem (fst kv) req)) l = l).
      { induction l as [|[k v] l IHl]; intros g; [reflexivity|]. cbn [filter fst]. rewrite (proj2 (mem_not_In _ _ _) (g k (or_introl eq_refl))). cbn [negb].
        f_equal. apply IHl. intros x i. apply g. right. exact i. }
      rewrite F1 by (rewrite e; auto). rewrite F2 by exact h. reflexivity.
  Qed.
  Lemma conv_props_In o l l' : ConvProps tys o l l' -> forall k v, In (k, v) l' -> v <> VNone -> exists t v0, PropType o k t /\ Converted tys t v0 v.
  Proof.
    induction 1 as [|o k l l' h IH|o k v t w l l' nv hp hc h IH]; intros k' v' i ne; [destruct i| |].
    - destruct i as [i|i]; [congruence|apply IH; assumption].
    - destruct i as [i|i]; [injection i as <- <-; eauto|apply IH; assumption].
  Qed.
  Lemma conv_elems_nth a i l l' : ConvElems tys a i l l' -> forall j v t, nth_error l' j = Some v -> v <> VNone -> ElemType a (i + j) t -> exists v0, Converted tys t v0 v.
  Proof.
    induction 1 as [a i|a i l l' h IH|a i v u w l l' nv hp hc h IH|a i v l l' nv hn h IH]; intros [|j] v' t' n ne ht; try discriminate n.
    - cbn in n. congruence.
    - cbn [nth_error] in n. rewrite Nat.add_succ_r in ht. exact (IH j v' t' n ne ht).
    - cbn in n. injection n as <-. rewrite Nat.add_0_r in ht. rewrite (elem_type_fun _ _ _ _ ht hp). eauto.
    - cbn [nth_error] in n. rewrite Nat.add_succ_r in ht. exact (IH j v' t' n ne ht).
    - rewrite Nat.add_0_r in ht. destruct (hn _ ht).
    - cbn [nth_error] in n. rewrite Nat.add_succ_r in ht. exact (IH j v' t' n ne ht).
  Qed.
  Lemma arranged_parts req l : exists l1 l2, arranged req l = l1 ++ l2 /\ dkeys l1 = req /\ (forall k, In k (dkeys l2) -> ~ In k req).
  Proof.
    unfold arranged. eexists _, _. split; [reflexivity|]. split; [unfold dkeys; rewrite map_map; cbn; apply map_id|].
    intros k i. unfold dkeys in i. apply in_map_iff in i. destruct i as ([k' v] & <- & i). apply filter_In in i. destruct i as [_ i].
    apply negb_true_iff, mem_not_In in i. exact i.
  Qed.
  Lemma dkeys_split (l' : list (string * pyval)) l1 l2 : dkeys l' = dkeys (l1 ++ l2 : list (string * pyval)) ->
    exists m1 m2, l' = m1 ++ m2 /\ dkeys m1 = dkeys l1 /\ dkeys m2 = dkeys l2.
  Proof.
    revert l'. induction l1 as [|[k v] l1 IH]; intros l' h; [exists [], l'; auto|]. destruct l' as [|[k' v'] l']; [discriminate|].
    cbn in h. injection h as -> h. destruct (IH l' h) as (m1 & m2 & -> & e1 & e2). exists ((k, v') :: m1), m2. cbn. unfold dkeys in e1. rewrite e1. auto.
  Qed.
  Lemma arranged_In req l k v : In (k, v) (arranged req l) -> v <> VNone -> In (k, v) l.
  Proof.
    unfold arranged. intros i ne. apply in_app_or in i. destruct i as [i|i].
    - apply in_map_iff in i. destruct i as (k' & e & _). injection e as -> <-. destruct (dget k l) eqn:g; [apply dget_In; exact g|congruence].
    - apply filter_In in i. apply i.
  Qed.
  Lemma checked_converted :
    (forall t v w, Checked tys t v w -> (v <> VNone -> exists v0, Converted tys t v0 v) -> w <> VNone -> Converted tys t w w) /\
    (forall o l l', CheckedProps tys o l l' -> (forall k v, In (k, v) l -> v <> VNone -> exists t v0, PropType o k t /\ Converted tys t v0 v) ->
       Named o l' /\ ConvProps tys o l' l') /\
    (forall a i l l', CheckedElems tys a i l l' -> (forall j v t, nth_error l j = Some v -> v <> VNone -> ElemType a (i + j) t -> exists v0, Converted tys t v0 v) ->
       ConvElems tys a i l' l').
  Proof.
    apply Checked_mut.
    - congruence.
    - intros t d w e nd hc IH _ nw. apply IH; [|exact nw]. intros _. exists d. subst d. apply defaults. exact nd.
    - intros t s v nv et hv pre _. destruct (pre nv) as (v0 & h). inversion h; subst; try congruence.
      eapply conv_scal; [exact et|]. replace s0 with s in * by congruence. eapply stable; eassumption.
    - intros t o l l' et hc IH hg pre _. destruct (pre ltac:(discriminate)) as (v0 & h). inversion h as [|t' o' v l0 l0' et' hl0 hn0 hc0 q1 q2 q3|t' a' v l0 l0' et' ? ? q1 q2 q3]; subst.
      + congruence.
      + replace o' with o in * by congruence. destruct IH as (hn & hp).
        { intros k v1 i ne. apply arranged_In in i; [|exact ne]. eapply conv_props_In; eassumption. }
        destruct (arranged_parts (o_req o) l0') as (l1 & l2 & el & e1 & e2).
        pose proof (proj1 (proj2 (proj1 (proj2 (checked_validates tys)) _ _ _ hc))) as ek. rewrite el in ek.
        destruct (dkeys_split _ _ _ ek) as (m1 & m2 & em & k1 & k2).
        assert (q : arranged (o_req o) l' = l').
        { rewrite em. apply arranged_fix; [eapply once; exact et|congruence|]. intros k i. apply e2. rewrite <- k2. exact i. }
        rewrite <- q at 2. eapply conv_obj; [exact et|reflexivity|exact hn|exact hp].
      + unfold as_sequence in q3. destruct (a_tuple a'); discriminate.
    - intros t a l l' et hc IH hg pre _. destruct (pre ltac:(discriminate)) as (v0 & h). inversion h as [|?|t' a' v l0 l0' et' hl0 hce q1 q2 q3]; subst; try congruence.
      replace a' with a in * by congruence. unfold as_sequence in q3. destruct (a_tuple a) eqn:ea; [discriminate|]. injection q3 as <-.
      assert (q : Converted tys t (VList l') (as_sequence (a_tuple a) l')); [|rewrite ea in q; exact q]. eapply conv_arr; [exact et|reflexivity|]. apply IH.
      intros j v1 t1 n ne ht. eapply (conv_elems_nth a 0); eassumption.
    - intros t a et hj pre _. destruct (pre ltac:(discriminate)) as (v0 & h). inversion h as [|?|t' a' v l0 l0' et' hl0 hce q1 q2 q3]; subst; try congruence.
      replace a' with a in * by congruence. unfold as_sequence in q3. destruct (a_tuple a) eqn:ea; [|discriminate].
      assert (q : Converted tys t (VTup []) (as_sequence (a_tuple a) [])) by (eapply conv_arr; [exact et|reflexivity|constructor]).
      rewrite ea in q. injection q3 as ->. exact q.
    - intros o _. split; [intros k []|constructor].
    - intros o k v t w l l' hp hc IHc hcs IH pre. destruct IH as (hn & hcp); [intros k1 v1 i; apply pre; right; exact i|]. split.
      + intros k1 [<-|i]; [eauto|apply hn; exact i].
      + destruct (is_null w) eqn:ew; [apply is_null_spec in ew; subst w; apply cp_null; exact hcp|]. apply is_null_false in ew.
        eapply cp_cons; [exact ew|exact hp| |exact hcp]. apply IHc; [|exact ew]. intros nv. destruct (pre k v (or_introl eq_refl) nv) as (u & v0 & hu & h0).
        rewrite (prop_type_fun _ _ _ _ hp hu). eauto.
    - intros a i _. constructor.
    - intros a i v t w l l' hp hc IHc hcs IH pre.
      assert (hcp : ConvElems tys a (S i) l' l').
      { apply IH. intros j v1 t1 n ne ht. apply (pre (S j) v1 t1 n ne). rewrite Nat.add_succ_r. exact ht. }
      destruct (is_null w) eqn:ew; [apply is_null_spec in ew; subst w; apply ce_null; exact hcp|]. apply is_null_false in ew.
      eapply ce_cons; [exact ew|exact hp| |exact hcp]. apply IHc; [|exact ew]. intros nv. eapply (pre 0); [reflexivity|exact nv|]. rewrite Nat.add_0_r. exact hp.
  Qed.
  Lemma checked_again :
    (forall t v w, Checked tys t v w -> Checked tys t w w) /\
    (forall o l l', CheckedProps tys o l l' -> CheckedProps tys o l' l') /\
    (forall a i l l', CheckedElems tys a i l l' -> CheckedElems tys a i l' l').
  Proof. apply Checked_mut; intros; try assumption; econstructor; eassumption. Qed.
  Lemma checked_null t w1 : Checked tys t w1 VNone -> default_of tys t = VNone.
  Proof.
    intros h. assert (nn : w1 = VNone).
    { destruct (is_null w1) eqn:e; [apply is_null_spec; exact e|]. apply is_null_false in e. destruct (proj2 (proj1 (fill_complete tys) _ _ _ h) e eq_refl). }
    subst w1. inversion h as [t' e|t' d w e nd hc| | | | ]; subst; try assumption; try congruence.
    destruct (proj2 (proj1 (fill_complete tys) _ _ _ hc) nd eq_refl).
  Qed.
  Theorem evaluate_idempotent : forall t v w n, evaluate tys n t v = Ok w -> exists m, evaluate tys m t w = Ok w.
  Proof.
    intros t v w n h. apply evaluate_iff. assert (hw : Evaluated tys t v w) by (apply evaluate_iff; eauto). clear h n.
    assert (G : forall v1 w1, Converted tys t v1 w1 -> Checked tys t w1 w -> w <> VNone -> Evaluated tys t w w).
    { intros v1 w1 h1 h2 nw. eapply ev_value; [exact nw| |exact (proj1 checked_again _ _ _ h2)].
      eapply (proj1 checked_converted); [exact h2| |exact nw]. intros _. eauto. }
    destruct (is_null w) eqn:ew; [|apply is_null_false in ew; destruct hw as [e|d w1 w' e nd h1 h2|v' w1 w' nv h1 h2]; [congruence| |]; eapply G; eassumption].
    apply is_null_spec in ew. destruct hw as [e|d w1 w' e nd h1 h2|v' w1 w' nv h1 h2]; [apply ev_null; exact e|rewrite ew in h2 |- *|rewrite ew in h2 |- *].
    - apply ev_null. apply (checked_null _ _ h2).
    - apply ev_null. apply (checked_null _ _ h2).
  Qed.
End Idem.
Print Assumptions evaluate_idempotent.

(** ** places *)
Section Places.
  Variable tys : nat -> node.

  Lemma at_null p x : At VNone p x -> p = [] /\ x = VNone.
  Proof. intros h. inversion h as [v|l k v p' x' e h'|u l i v p' x' e n h']; subst; [auto|]. discriminate e. Qed.
  Lemma arranged_get req l k v : dget k l = Some v -> dget k (arranged req l) = Some v.
  Proof.
    intros e. unfold arranged. assert (F : forall l, ~ In k req -> dget k (filter (fun kv : string * pyval => negb (mem (fst kv) req)) l) = dget k l).
    { clear l e. intros l n. induction l as [|[k' v'] l IH]; [reflexivity|]. cbn [filter fst]. destruct (eq_dec k k') as [<-|ne].
      - rewrite (proj2 (mem_not_In _ _ _) n). cbn [negb dget]. destruct (eq_dec k k) as [_|q]; [reflexivity|congruence].
      - cbn [dget]. destruct (eq_dec k k') as [q|_]; [congruence|]. destruct (negb (mem k' req)); [|exact IH]. cbn [dget].
        destruct (eq_dec k k') as [q|_]; [congruence|exact IH]. }
    assert (G : forall m m' : list (string * pyval), dget k (m ++ m') = match dget k m with Some x => Some x | None => dget k m' end).
    { induction m as [|[k' v'] m IH]; intros m'; [reflexivity|]. cbn [app dget]. destruct (eq_dec k k'); [reflexivity|apply IH]. }
    rewrite G, dget_map_keys. destruct (in_dec eq_dec k req) as [i|n]; [rewrite e; reflexivity|]. rewrite F by exact n. exact e.
  Qed.
  Lemma arranged_get_inv req l k v : dget k (arranged req l) = Some v -> v <> VNone -> dget k l = Some v.
  Proof.
    intros e ne. destruct (dget k l) as [v'|] eqn:g; [rewrite (arranged_get _ _ _ _ g) in e; exact e|].
    apply dget_In in e. apply arranged_In in e; [|exact ne]. apply (in_map fst) in e. apply dget_None in g. destruct (g e).
  Qed.
  Lemma conv_props_get o l l' : ConvProps tys o l l' -> forall k,
    (forall v, dget k l = Some v -> v <> VNone -> exists t w, dget k l' = Some w /\ PropType o k t /\ Converted tys t v w) /\
    (forall w, dget k l' = Some w -> w <> VNone -> exists t v, dget k l = Some v /\ v <> VNone /\ PropType o k t /\ Converted tys t v w).
  Proof.
    induction 1 as [o|o k0 l l' h IH|o k0 v0 t0 w0 l l' nv hp hc h IH]; intros k; cbn [dget].
    - split; discriminate.
    - destruct (eq_dec k k0) as [->|ne]; [split; intros x e; congruence|apply IH].
    - destruct (eq_dec k k0) as [->|ne]; [|apply IH]. split; intros x e n; injection e as <-; eauto 7.
  Qed.
  Lemma conv_elems_get a i l l' : ConvElems tys a i l l' -> forall j u, ElemType a (i + j) u ->
    (forall v, nth_error l j = Some v -> v <> VNone -> exists w, nth_error l' j = Some w /\ Converted tys u v w) /\
    (forall w, nth_error l' j = Some w -> w <> VNone -> exists v, nth_error l j = Some v /\ v <> VNone /\ Converted tys u v w).
  Proof.
    induction 1 as [a i|a i l l' h IH|a i v t w l l' nv hp hc h IH|a i v l l' nv hn h IH]; intros [|j] u hu; cbn [nth_error];
      try (split; discriminate); try (rewrite Nat.add_succ_r in hu; exact (IH j u hu)); rewrite Nat.add_0_r in hu.
    - split; intros x e; congruence.
    - rewrite (elem_type_fun _ _ _ _ hu hp). split; intros x e n; injection e as <-; eauto.
    - destruct (hn _ hu).
  Qed.
  Lemma to_list_sequence tup l : to_list (as_sequence tup l) = Ok l.
  Proof. destruct tup; reflexivity. Qed.
  Lemma converted_at p : forall t v w u x, Converted tys t v w -> TypeAt tys t p u -> At v p x -> x <> VNone -> exists z, At w p z /\ Converted tys u x z.
  Proof.
    induction p as [|s p IH]; intros t v w u x hc ht ha ne.
    - inversion ht; subst. inversion ha; subst. exists w. split; [constructor|exact hc].
    - inversion ht as [|t1 o k u1 p1 t2 et hp ht1|t1 a i u1 p1 t2 et hp ht1]; subst.
      + inversion ha as [|l k' v1 p2 x2 e ha1|]; subst. assert (nv : v1 <> VNone) by (intros ->; apply at_null in ha1; destruct ha1; congruence).
        inversion hc as [|t3 o3 v3 l3 l3' et3 hl hn hcp|t3 a3 v3 l3 l3' et3 hl hce]; subst; try congruence.
        replace o3 with o in * by congruence. cbn in hl. injection hl as <-.
        destruct (proj1 (conv_props_get _ _ _ hcp k) v1 e nv) as (t4 & w4 & e4 & hp4 & hc4). rewrite (prop_type_fun _ _ _ _ hp4 hp) in hc4.
        destruct (IH _ _ _ _ _ hc4 ht1 ha1 ne) as (z & hz & hz2). exists z. split; [|exact hz2]. eapply at_key; [apply arranged_get; exact e4|exact hz].
      + inversion ha as [| |u2 l i2 v1 p2 x2 e n ha1]; subst. assert (nv : v1 <> VNone) by (intros ->; apply at_null in ha1; destruct ha1; congruence).
        inversion hc as [|t3 o3 v3 l3 l3' et3 hl hn hcp|t3 a3 v3 l3 l3' et3 hl hce]; subst; try congruence.
        replace a3 with a in * by congruence. rewrite hl in e. injection e as ->.
        destruct (proj1 (conv_elems_get _ _ _ _ hce i u1 hp) v1 n nv) as (w4 & e4 & hc4).
        destruct (IH _ _ _ _ _ hc4 ht1 ha1 ne) as (z & hz & hz2). exists z. split; [|exact hz2]. eapply at_pos; [apply to_list_sequence|exact e4|exact hz].
  Qed.
  Lemma converted_at_inv p : forall t v w u z, Converted tys t v w -> TypeAt tys t p u -> At w p z -> z <> VNone -> v <> VNone ->
    exists x, At v p x /\ x <> VNone /\ Converted tys u x z.
  Proof.
    induction p as [|s p IH]; intros t v w u z hc ht ha ne nv0.
    - inversion ht; subst. inversion ha; subst. exists v. split; [constructor|auto].
    - inversion ht as [|t1 o k u1 p1 t2 et hp ht1|t1 a i u1 p1 t2 et hp ht1]; subst.
      + inversion ha as [|l k' v1 p2 x2 e ha1|]; subst. assert (nv : v1 <> VNone) by (intros ->; apply at_null in ha1; destruct ha1; congruence).
        inversion hc as [|t3 o3 v3 l3 l3' et3 hl hn hcp|t3 a3 v3 l3 l3' et3 hl hce q1 q2 q3]; subst; try congruence.
        replace o3 with o in * by congruence. apply arranged_get_inv in e; [|exact nv].
        destruct (proj2 (conv_props_get _ _ _ hcp k) v1 e nv) as (t4 & w4 & e4 & n4 & hp4 & hc4). rewrite (prop_type_fun _ _ _ _ hp4 hp) in hc4.
        destruct (IH _ _ _ _ _ hc4 ht1 ha1 ne n4) as (x & hx & hx2). exists x. split; [|exact hx2].
        assert (v = VDict l3) as ->. { destruct v as [| | |[|]|[|]|[|]|l5|]; cbn in hl; try discriminate; injection hl as <-; try discriminate e4. reflexivity. }
        eapply at_key; eassumption.
      + inversion ha as [| |u2 l i2 v1 p2 x2 e n ha1]; subst. assert (nv : v1 <> VNone) by (intros ->; apply at_null in ha1; destruct ha1; congruence).
        inversion hc as [|t3 o3 v3 l3 l3' et3 hl hn hcp|t3 a3 v3 l3 l3' et3 hl hce q1 q2 q3]; subst; try congruence.
        replace a3 with a in * by congruence. rewrite to_list_sequence in e. injection e as ->.
        destruct (proj2 (conv_elems_get _ _ _ _ hce i u1 hp) v1 n nv) as (w4 & e4 & n4 & hc4).
        destruct (IH _ _ _ _ _ hc4 ht1 ha1 ne n4) as (x & hx & hx2). exists x. split; [|exact hx2]. eapply at_pos; eassumption.
  Qed.
  Lemma checked_props_get o l l' : CheckedProps tys o l l' -> forall k,
    (forall v, dget k l = Some v -> exists t w, dget k l' = Some w /\ PropType o k t /\ Checked tys t v w) /\
    (forall w, dget k l' = Some w -> exists t v, dget k l = Some v /\ PropType o k t /\ Checked tys t v w).
  Proof.
    induction 1 as [o|o k0 v0 t0 w0 l l' hp hc h IH]; intros k; cbn [dget]; [split; discriminate|].
    destruct (eq_dec k k0) as [->|ne]; [|apply IH]. split; intros x e; injection e as <-; eauto.
  Qed.
  Lemma checked_elems_get a i l l' : CheckedElems tys a i l l' -> forall j u, ElemType a (i + j) u ->
    (forall v, nth_error l j = Some v -> exists w, nth_error l' j = Some w /\ Checked tys u v w) /\
    (forall w, nth_error l' j = Some w -> exists v, nth_error l j = Some v /\ Checked tys u v w).
  Proof.
    induction 1 as [a i|a i v t w l l' hp hc h IH]; intros [|j] u hu; cbn [nth_error]; try (split; discriminate);
      try (rewrite Nat.add_succ_r in hu; exact (IH j u hu)). rewrite Nat.add_0_r in hu.
    rewrite (elem_type_fun _ _ _ _ hu hp). split; intros x e; injection e as <-; eauto.
  Qed.
  Lemma checked_at p : forall t v w u x, Checked tys t v w -> TypeAt tys t p u -> At v p x -> x <> VNone -> exists y, At w p y /\ Checked tys u x y.
  Proof.
    induction p as [|s p IH]; intros t v w u x hc ht ha ne.
    - inversion ht; subst. inversion ha; subst. exists w. split; [constructor|exact hc].
    - inversion ht as [|t1 o k u1 p1 t2 et hp ht1|t1 a i u1 p1 t2 et hp ht1]; subst.
      + inversion ha as [|l k' v1 p2 x2 e ha1|]; subst. inversion hc as [| | |t3 o3 l3 l3' et3 hcp hg| | ]; subst; try congruence.
        replace o3 with o in * by congruence. destruct (proj1 (checked_props_get _ _ _ hcp k) v1 e) as (t4 & w4 & e4 & hp4 & hc4).
        rewrite (prop_type_fun _ _ _ _ hp4 hp) in hc4. destruct (IH _ _ _ _ _ hc4 ht1 ha1 ne) as (y & hy & hy2). exists y. split; [|exact hy2]. eapply at_key; eassumption.
      + inversion ha as [| |u2 l i2 v1 p2 x2 e n ha1]; subst. inversion hc as [| | | |t3 a3 l3 l3' et3 hce hg|t3 a3 et3 hj]; subst; try congruence; try discriminate e.
        * replace a3 with a in * by congruence. injection e as <-. destruct (proj1 (checked_elems_get _ _ _ _ hce i u1 hp) v1 n) as (w4 & e4 & hc4).
          destruct (IH _ _ _ _ _ hc4 ht1 ha1 ne) as (y & hy & hy2). exists y. split; [|exact hy2]. eapply at_pos; [reflexivity|exact e4|exact hy].
        * injection e as <-. destruct i; discriminate n.
  Qed.
  (** where [y] in the result comes from: [v] as it is, or a default within [v] *)
  Definition FromDefault (t : nat) (v : pyval) (p : list step) (y : pyval) : Prop :=
    exists p1 p2 u, p = p1 ++ p2 /\ TypeAt tys t p1 u /\ default_of tys u <> VNone /\ At (default_of tys u) p2 y /\ forall x, At v p1 x -> x = VNone.
  Lemma checked_at_inv p : forall t v w u y, Checked tys t v w -> TypeAt tys t p u -> At w p y -> y <> VNone ->
    (exists x, Checked tys u x y) /\ (forall s, tys u = NScal s -> At v p y \/ FromDefault t v p y).
  Proof.
    induction p as [|s p IH].
    - assert (B : forall t v w u y, Checked tys t v w -> v <> VNone -> TypeAt tys t [] u -> At w [] y -> y <> VNone ->
        (exists x, Checked tys u x y) /\ (forall s, tys u = NScal s -> At v [] y \/ FromDefault t v [] y)).
      { intros t v w u y hc nv ht ha ne. inversion ht; subst. inversion ha; subst. split; [eauto|]. intros s es.
        inversion hc; subst; try congruence. left. constructor. }
      intros t v w u y hc ht ha ne. destruct (is_null v) eqn:ev; [|apply is_null_false in ev; eapply B; eassumption]. apply is_null_spec in ev. subst v.
      inversion hc as [t' e|t' d w' e nd hc'| | | |]; subst; [inversion ha; congruence| |congruence].
      destruct (B _ _ _ _ _ hc' nd ht ha ne) as (h1 & h2). split; [exact h1|]. intros s es. right. destruct (h2 s es) as [h|(p1 & p2 & u1 & e1 & h)].
      + exists [], [], t. repeat split; auto; [constructor|]. intros x hx. apply at_null in hx. apply hx.
      + exists p1, p2, u1. destruct h as (h3 & h4 & h5 & h6). repeat split; auto. intros x hx. apply at_null in hx. apply hx.
    - assert (B : forall t v w u y, Checked tys t v w -> v <> VNone -> TypeAt tys t (s :: p) u -> At w (s :: p) y -> y <> VNone ->
        (exists x, Checked tys u x y) /\ (forall s', tys u = NScal s' -> At v (s :: p) y \/ FromDefault t v (s :: p) y)).
      { intros t v w u y hc nv ht ha ne. inversion ht as [|t1 o k u1 p1 t2 et hp ht1|t1 a i u1 p1 t2 et hp ht1]; subst.
        - inversion ha as [|l k' v1 p2 x2 e ha1|]; subst. inversion hc as [| | |t3 o3 l3 l3' et3 hcp hg| | ]; subst; try congruence.
          replace o3 with o in * by congruence. destruct (proj2 (checked_props_get _ _ _ hcp k) v1 e) as (t4 & w4 & e4 & hp4 & hc4).
          rewrite (prop_type_fun _ _ _ _ hp4 hp) in hc4. destruct (IH _ _ _ _ _ hc4 ht1 ha1 ne) as (h1 & h2). split; [exact h1|].
          intros s' es. destruct (h2 s' es) as [h|(p3 & p4 & u3 & -> & h3 & h4 & h5 & h6)]; [left; eapply at_key; eassumption|right].
          exists (Key k :: p3), p4, u3. repeat split; auto; [exact (ta_key tys _ _ _ _ _ _ et hp h3)|]. intros x hx. inversion hx as [|? ? ? ? ? q1 q2|]; subst.
          rewrite e4 in q1. injection q1 as <-. apply h6. exact q2.
        - inversion ha as [| |u2 l i2 v1 p2 x2 e n ha1]; subst. inversion hc as [| | | |t3 a3 l3 l3' et3 hce hg|t3 a3 et3 hj]; subst; try congruence; try discriminate e.
          + replace a3 with a in * by congruence. injection e as <-. destruct (proj2 (checked_elems_get _ _ _ _ hce i u1 hp) v1 n) as (w4 & e4 & hc4).
            destruct (IH _ _ _ _ _ hc4 ht1 ha1 ne) as (h1 & h2). split; [exact h1|].
            intros s' es. destruct (h2 s' es) as [h|(p3 & p4 & u3 & -> & h3 & h4 & h5 & h6)]; [left; eapply at_pos; [reflexivity|exact e4|exact h]|right].
            exists (Pos i :: p3), p4, u3. repeat split; auto; [eapply ta_pos; eassumption|]. intros x hx. inversion hx as [| |? ? ? ? ? ? q1 q2 q3]; subst.
            cbn in q1. injection q1 as <-. rewrite e4 in q2. injection q2 as <-. apply h6. exact q3.
          + injection e as <-. destruct i; discriminate n. }
      intros t v w u y hc ht ha ne. destruct (is_null v) eqn:ev; [|apply is_null_false in ev; eapply B; eassumption]. apply is_null_spec in ev. subst v.
      inversion hc as [t' e|t' d w' e nd hc'| | | |]; subst; [apply at_null in ha; destruct ha; congruence| |congruence].
      destruct (B _ _ _ _ _ hc' nd ht ha ne) as (h1 & h2). split; [exact h1|]. intros s' es. right. destruct (h2 s' es) as [h|(p1 & p2 & u1 & e1 & h)].
      + exists [], (s :: p), t. repeat split; auto; [constructor|]. intros x hx. apply at_null in hx. apply hx.
      + exists p1, p2, u1. destruct h as (h3 & h4 & h5 & h6). repeat split; auto. intros x hx. apply at_null in hx. apply hx.
  Qed.
End Places.

(** every scalar given is converted and validated by the type of its place, and found at the same place *)
Theorem scalar_evaluated : forall tys t v w p u s x, Evaluated tys t v w -> TypeAt tys t p u -> tys u = NScal s -> At v p x -> x <> VNone ->
  exists y, sc_conv s x = Ok y /\ (y <> VNone -> At w p y /\ sc_val s y = Ok tt).
Proof.
  intros tys t v w p u s x hw ht es ha ne.
  destruct hw as [e|d w1 w' e nd h1 h2|v' w1 w' nv h1 h2]; try (apply at_null in ha; destruct ha; congruence).
  destruct (converted_at tys p _ _ _ _ _ h1 ht ha ne) as (z & hz & hc). exists z. inversion hc; subst; try congruence. split; [congruence|].
  intros nz. destruct (checked_at tys p _ _ _ _ _ h2 ht hz nz) as (y & hy & hk). inversion hk; subst; try congruence. split; [exact hy|congruence].
Qed.
Print Assumptions scalar_evaluated.
(** every scalar of the result is valid, and was given at the same place or in a default that replaces a null around it *)
Theorem scalar_origin : forall tys t v w p u s y, Evaluated tys t v w -> v <> VNone -> TypeAt tys t p u -> tys u = NScal s -> At w p y -> y <> VNone ->
  sc_val s y = Ok tt /\
  ((exists x, At v p x /\ x <> VNone /\ sc_conv s x = Ok y) \/
   exists p1 p2 u1, p = p1 ++ p2 /\ TypeAt tys t p1 u1 /\ default_of tys u1 <> VNone /\ At (default_of tys u1) p2 y /\
     forall x, At v p1 x -> x <> VNone -> exists s1, tys u1 = NScal s1 /\ sc_conv s1 x = Ok VNone).
Proof.
  intros tys t v w p u s y hw nv0 ht es ha ne. destruct hw as [e|d w1 w' e nd h1 h2|v' w1 w' nv h1 h2]; try congruence.
  destruct (checked_at_inv tys p _ _ _ _ _ h2 ht ha ne) as ((x & hx) & hd). split.
  - inversion hx; subst; try congruence. inversion H1; subst; congruence.
  - destruct (hd s es) as [h|(p1 & p2 & u1 & -> & h3 & h4 & h5 & h6)].
    + left. destruct (converted_at_inv tys p _ _ _ _ _ h1 ht h ne nv) as (x' & hx' & nx & hc). exists x'. split; [exact hx'|]. split; [exact nx|].
      inversion hc; subst; congruence.
    + right. exists p1, p2, u1. repeat split; auto. intros x' hx' nx. destruct (converted_at tys p1 _ _ _ _ _ h1 h3 hx' nx) as (z & hz & hc).
      pose proof (h6 z hz) as ->. inversion hc as [t3 s3 v3 w3 e3 e4| |t3 a3 v3 l3 l3' ? ? ? q1 q2 q3]; subst; [eauto|].
      unfold as_sequence in q3. destruct (a_tuple a3); discriminate.
Qed.
Print Assumptions scalar_origin.
(** every object and array of the result is as its type requires *)
Theorem containers_checked : forall tys t v w p u, Evaluated tys t v w -> TypeAt tys t p u ->
  (forall o l, tys u = NObj o -> At w p (VDict l) -> (forall k, In k (o_req o) -> In k (dkeys l)) /\ Named o l /\ o_js o (VDict l) = Ok tt) /\
  (forall a l, tys u = NArr a -> At w p (VList l) -> a_js a (VList l) = Ok tt /\ (a_unique a = true -> forall x, In x l -> Query_Model.hashable x = true) /\
     forall i, i < length l -> exists t', ElemType a i t').
Proof.
  intros tys t v w p u hw ht. assert (G : forall y, At w p y -> y <> VNone -> exists z, Checked tys u z y /\ z <> VNone).
  { intros y ha ne. destruct hw as [e|d w1 w' e nd h1 h2|v' w1 w' nv h1 h2]; [apply at_null in ha; destruct ha; congruence| |];
      destruct (checked_at_inv tys p _ _ _ _ _ h2 ht ha ne) as ((z & hz) & _);
      (destruct (is_null z) eqn:ez; [|apply is_null_false in ez; eauto]; apply is_null_spec in ez; subst z;
       inversion hz as [|t' d' w2 e' nd' hc'| | | |]; subst; try congruence; eauto). }
  split.
  - intros o l eo ha. destruct (G _ ha ltac:(discriminate)) as (z & hz & nz). inversion hz as [| | |t3 o3 l3 l3' et3 hcp hg| | ]; subst; try congruence.
    replace o3 with o in * by congruence. destruct hg as [g1 g2]. split; [exact g1|]. split; [|exact g2].
    exact (proj1 (proj1 (proj2 (checked_validates tys)) _ _ _ hcp)).
  - intros a l ea ha. destruct (G _ ha ltac:(discriminate)) as (z & hz & nz). inversion hz as [| | | |t3 a3 l3 l3' et3 hce hg| ]; subst; try congruence.
    replace a3 with a in * by congruence. destruct hg as [g1 g2]. split; [exact g1|]. split; [exact g2|].
    clear -hce. intros i. assert (K : forall a j l l', CheckedElems tys a j l l' -> forall i, i < length l' -> exists t', ElemType a (j + i) t').
    { clear. induction 1 as [a i|a i v t w l l' hp hc h IH]; intros [|j] hj; cbn [length] in hj; try lia; [rewrite Nat.add_0_r; eauto|].
      rewrite Nat.add_succ_r. apply (IH j). lia. }
    apply (K a 0 l3 l hce).
Qed.
Print Assumptions containers_checked.

(** ** what is refused *)
Theorem undeclared_refused : forall tys t o l k n, tys t = NObj o -> In k (dkeys l) -> (forall u, ~ PropType o k u) ->
  evaluate tys (S n) t (VDict l) = Err KeyError.
Proof.
  intros tys t o l k n et hk hn. unfold evaluate. cbn [is_null]. cbn [convert]. rewrite et. cbn [to_dict rbind].
  assert (E : types_of o l = Err KeyError); [|rewrite E; reflexivity]. revert hk. induction l as [|[k' v] l IH]; intros hk; [destruct hk|].
  cbn [types_of]. destruct (prop_type o k') as [u|e] eqn:ep; cbn [rbind].
  - destruct hk as [<-|hk]; [destruct (hn u); apply prop_type_spec; exact ep|]. rewrite (IH hk). reflexivity.
  - unfold prop_type in ep. destruct (dget k' (o_props o)); [discriminate|]. destruct (find _ _); [discriminate|]. destruct (o_add o); congruence.
Qed.
Print Assumptions undeclared_refused.
Theorem too_many_items_refused : forall tys t a ts l n w, tys t = NArr a -> a_items a = inr ts -> length ts < length l ->
  evaluate tys n t (VList l) <> Ok w.
Proof.
  intros tys t a ts l n w et ei hl ew. assert (hw : Evaluated tys t (VList l) w) by (apply evaluate_iff; eauto).
  assert (L : forall a i l l', ConvElems tys a i l l' -> length l' = length l) by (clear; induction 1; cbn [length]; congruence).
  assert (K : forall a j l l', CheckedElems tys a j l l' -> forall i, i < length l -> exists t', ElemType a (j + i) t').
  { clear. induction 1 as [a i|a i v t w l l' hp hc h IH]; intros [|j] hj; cbn [length] in hj; try lia; [rewrite Nat.add_0_r; eauto|].
    rewrite Nat.add_succ_r. apply (IH j). lia. }
  inversion hw as [|? ? ? ? ? ? ?|v w1 w' nv h1 h2]; subst. inversion h1 as [|t3 o3 v3 l3 l3' et3 hl3 hn hcp|t3 a3 v3 l3 l3' et3 hl3 hce]; subst; try congruence.
  replace a3 with a in * by congruence. cbn in hl3. injection hl3 as <-. specialize (L _ _ _ _ hce). unfold as_sequence in h2. destruct (a_tuple a).
  - inversion h2; subst; try congruence. cbn in L. lia.
  - inversion h2 as [| | | |t4 a4 l4 l4' et4 hk hg|]; subst; try congruence. replace a4 with a in * by congruence.
    destruct (K _ _ _ _ hk (length ts)) as (t' & ht); [lia|]. cbn in ht. inversion ht as [|l5 t5 e1 e2]; subst; [congruence|]. assert (l5 = ts) by congruence. subst l5.
    apply nth_error_Some in hl. revert e2. assert (H : nth_error ts (length ts) = None) by (apply nth_error_None; lia). congruence.
Qed.
Print Assumptions too_many_items_refused.
(** a required property that is missing is not refused: it is there, null *)
Theorem missing_required_refuted : forall tys t o l k u w, tys t = NObj o -> In k (o_req o) -> ~ In k (dkeys l) -> PropType o k u -> default_of tys u = VNone ->
  Evaluated tys t (VDict l) w -> At w [Key k] VNone.
Proof.
  intros tys t o l k u w et hr hk hp hd hw. inversion hw as [|? ? ? ? ? ? ?|v w1 w' nv h1 h2]; subst.
  inversion h1 as [|t3 o3 v3 l3 l3' et3 hl3 hn hcp|t3 a3 v3 l3 l3' et3 hl3 hce q1 q2 q3]; subst; try congruence.
  replace o3 with o in * by congruence. cbn in hl3. injection hl3 as <-. inversion h2 as [| | |t4 o4 l4 l4' et4 hk4 hg| | ]; subst; try congruence.
  replace o4 with o in * by congruence. assert (G : dget k (arranged (o_req o) l3') = Some VNone).
  { assert (D : dget k l3' = None).
    { apply dget_None. intros i. apply hk. clear -i hcp. induction hcp; cbn [dkeys map fst In] in *; intuition. }
    unfold arranged. clear -hr D. induction (o_req o) as [|r req IH]; [destruct hr|]. cbn [map app dget]. destruct (eq_dec k r) as [<-|n]; [rewrite D; reflexivity|].
    assert (hr' : In k req) by (destruct hr; [congruence|assumption]). clear -hr' D. generalize (filter (fun kv : string * pyval => negb (mem (fst kv) (r :: req))) l3'). intros m.
    induction req as [|x req IH]; [destruct hr'|]. cbn [map app dget]. destruct (eq_dec k x) as [<-|n]; [rewrite D; reflexivity|]. apply IH. destruct hr'; [congruence|assumption]. }
  destruct (proj1 (checked_props_get tys _ _ _ hk4 k) _ G) as (t5 & w5 & e5 & p5 & c5). rewrite (prop_type_fun _ _ _ _ p5 hp) in c5.
  eapply at_key; [exact e5|]. inversion c5; subst; try congruence. constructor.
Qed.
Print Assumptions missing_required_refuted.
(** A value that is not a mapping is not taken for an object (a text is one when empty, and so are empty lists), and a value that cannot be
    gone through is not taken for an array. *)
Theorem not_a_mapping_refused : forall tys t o v n w, tys t = NObj o ->
  match v with VBool _ | VInt _ | VObj _ => True | VStr s => s <> EmptyString | _ => False end -> evaluate tys n t v <> Ok w.
Proof.
  intros tys t o v n w et h e. unfold evaluate in e. destruct n as [|n]; destruct v as [|b|z|[|c s]| | | |j]; try destruct h; try congruence;
    cbn [is_null] in e; try discriminate e; cbn [convert is_null] in e; rewrite et in e; discriminate e.
Qed.
Print Assumptions not_a_mapping_refused.
Theorem not_a_sequence_refused : forall tys t a v n w, tys t = NArr a ->
  match v with VBool _ | VInt _ | VObj _ => True | _ => False end -> evaluate tys n t v <> Ok w.
Proof.
  intros tys t a v n w et h e. unfold evaluate in e. destruct n as [|n]; destruct v; try destruct h;
    cbn [is_null] in e; try discriminate e; cbn [convert is_null] in e; rewrite et in e; discriminate e.
Qed.
Print Assumptions not_a_sequence_refused.

(** a type whose values are tuples has no value with an item *)
Theorem tuple_refuted : forall tys t a v w, tys t = NArr a -> a_tuple a = true -> v <> VNone -> Evaluated tys t v w -> w = VTup [].
Proof.
  intros tys t a v w et ea nv hw. inversion hw as [|? ? ? ? ? ? ?|v' w1 w' nv' h1 h2]; subst; try congruence.
  inversion h1 as [|t3 o3 v3 l3 l3' et3 hl3 hn hcp|t3 a3 v3 l3 l3' et3 hl3 hce]; subst; try congruence.
  replace a3 with a in * by congruence. rewrite ea in h2. unfold as_sequence in h2. inversion h2; subst; congruence.
Qed.
Print Assumptions tuple_refuted.
(** text given for an array is the array of its characters *)
Theorem text_as_array_refuted : forall tys t a s w, tys t = NArr a -> (Evaluated tys t (VStr s) w <-> Evaluated tys t (VList (letters s)) w).
Proof.
  intros tys t a s w et. split; intros hw; inversion hw as [|? ? ? ? ? ? ?|v w1 w' nv h1 h2]; subst;
    (inversion h1 as [|t3 o3 v3 l3 l3' et3 hl3 hn hcp|t3 a3 v3 l3 l3' et3 hl3 hce]; subst; try congruence; eapply ev_value; [discriminate| |exact h2]; eapply conv_arr; eassumption).
Qed.
Print Assumptions text_as_array_refuted.
(** an array of arrays like itself: evaluating a character never ends, whatever the depth allowed *)
Theorem recursive_array_refuted : forall tys t a c n, tys t = NArr a -> a_items a = inl t ->
  evaluate tys n t (VStr (String c EmptyString)) = Err RecursionError.
Proof.
  intros tys t a c n et ei. unfold evaluate. cbn [is_null].
  assert (E : forall n, convert tys n t (VStr (String c EmptyString)) = Err RecursionError); [|rewrite E; reflexivity].
  clear n. induction n as [|n IH]; [reflexivity|]. cbn [convert]. rewrite et. cbn [to_list letters conv_elems rbind is_null].
  unfold elem_type. rewrite ei. rewrite IH. reflexivity.
Qed.
Print Assumptions recursive_array_refuted.
(** validating does not look at members named as keywords of the type are *)
Theorem keyword_members_refuted : forall tys t o k u v1 v2 n excl, tys t = NObj o ->
  In k ["required"; "properties"; "propertiesAdditional"; "additionalProperties"]%string -> PropType o k u ->
  o_js o (VDict [(k, v1)]) = Ok tt -> o_js o (VDict [(k, v2)]) = Ok tt ->
  validate tys n excl t (VDict [(k, v1)]) = validate tys n excl t (VDict [(k, v2)]).
Proof.
  intros tys t o k u v1 v2 n excl et hk hp j1 j2. destruct n as [|n]; [reflexivity|]. cbn [validate]. rewrite et.
  cbn [dkeys map fst]. replace (forallb (fun k0 => dmem k0 [(k, v1)]) (o_req o)) with (forallb (fun k0 => dmem k0 [(k, v2)]) (o_req o)).
  2:{ clear. induction (o_req o) as [|x r IH]; [reflexivity|]. cbn [forallb]. rewrite IH. unfold dmem. cbn [dget]. destruct (eq_dec x k); reflexivity. }
  rewrite j1, j2. cbn [val_props]. apply prop_type_spec in hp. rewrite hp. cbn [rbind].
  assert (m : mem k (excl ++ o_excl) = true) by (apply mem_In, in_or_app; auto). rewrite m. reflexivity.
Qed.
Print Assumptions keyword_members_refuted.
(** nor, below an array, at members named as keywords of arrays are *)
Theorem keyword_items_refuted : forall tys t a u o k m v1 v2 n excl, tys t = NArr a -> a_items a = inl u -> tys u = NObj o -> a_unique a = false ->
  In k ["minItems"; "maxItems"; "uniqueItems"; "items"]%string -> PropType o k m ->
  (forall v, a_js a v = Ok tt) -> (forall v, o_js o v = Ok tt) ->
  validate tys n excl t (VList [VDict [(k, v1)]]) = validate tys n excl t (VList [VDict [(k, v2)]]).
Proof.
  intros tys t a u o k m v1 v2 n excl et ei eu un hk hp ja jo. destruct n as [|n]; [reflexivity|]. cbn [validate]. rewrite et, un, !ja.
  cbn [andb rbind val_elems is_null]. unfold elem_type. rewrite ei.
  replace (validate tys n (excl ++ a_excl) u (VDict [(k, v1)])) with (validate tys n (excl ++ a_excl) u (VDict [(k, v2)])); [reflexivity|].
  destruct n as [|n]; [reflexivity|]. cbn [validate]. rewrite eu, !jo. cbn [dkeys map fst].
  replace (forallb (fun k0 => dmem k0 [(k, v1)]) (o_req o)) with (forallb (fun k0 => dmem k0 [(k, v2)]) (o_req o)).
  2:{ clear. induction (o_req o) as [|x r IH]; [reflexivity|]. cbn [forallb]. rewrite IH. unfold dmem. cbn [dget]. destruct (eq_dec x k); reflexivity. }
  cbn [val_props]. apply prop_type_spec in hp. rewrite hp. cbn [rbind].
  assert (q : mem k ((excl ++ a_excl) ++ o_excl) = true) by (apply mem_In, in_or_app; left; apply in_or_app; right; exact hk). rewrite q. reflexivity.
Qed.
Print Assumptions keyword_items_refuted.
(** a value of the wrong kind raises TypeError *)
Theorem evaluate_type_error : forall tys n t v,
  match tys t with
  | NObj _ => match v with VBool _ | VInt _ | VObj _ | VStr (String _ _) => True | _ => False end
  | NArr _ => match v with VBool _ | VInt _ | VObj _ => True | _ => False end
  | NScal _ => False
  end -> evaluate tys (S n) t v = Err TypeError.
Proof.
  intros tys n t v h. unfold evaluate. destruct v as [|b|z|s|l|l|l|x]; cbn [is_null]; cbn [convert]; destruct (tys t) as [sc|o|a]; try destruct h; try reflexivity.
  destruct s; [destruct h|reflexivity].
Qed.
Print Assumptions evaluate_type_error.

(** ** a family: a person has a name, an age of 18 unless given, and friends *)
Definition text_s : scal := {| sc_conv := fun v => match v with VStr _ => Ok v | VBool b => Ok (VStr (if b then "True" else "False")%string) | _ => Err ConversionError end;
  sc_val := fun v => match v with VStr (String _ _) => Ok tt | _ => Err ValidationError end; sc_default := VNone |}.
Definition age_s : scal := {| sc_conv := fun v => match v with VInt _ => Ok v | VStr "seven" => Ok (VInt 7) | VStr "" => Ok VNone | _ => Err ConversionError end%string;
  sc_val := fun v => match v with VInt z => if (z <? 0)%Z then Err ValidationError else Ok tt | _ => Err ValidationError end; sc_default := VInt 18 |}.
Definition person_o : ocfg := {| o_props := [("age", 1); ("name", 0); ("friends", 3)]%string; o_pats := [(fun k => String.prefix "x_" k, 0)]; o_add := None;
  o_req := ["name"]%string; o_js := fun _ => Ok tt; o_default := VDict [("name", VStr "nobody")]%string |}.
Definition friends_a : acfg := {| a_items := inl 2; a_unique := false; a_tuple := false; a_js := fun v => match v with VList l => if 2 <? length l then Err ValidationError else Ok tt | _ => Ok tt end; a_default := VList [] |}.
Definition family (t : nat) : node := match t with 0 => NScal text_s | 1 => NScal age_s | 2 => NObj person_o | _ => NArr friends_a end.
Definition ann : pyval := VDict [("age", VStr "seven"); ("friends", VList [VDict [("x_a", VBool true); ("name", VStr "Bob"); ("age", VNone)]; VNone]); ("name", VStr "Ann")]%string.
Definition ann_e : pyval := VDict [("name", VStr "Ann"); ("age", VInt 7);
  ("friends", VList [VDict [("name", VStr "Bob"); ("x_a", VStr "True"); ("age", VInt 18)]; VDict [("name", VStr "nobody")]])]%string.
Example ann_evaluated : evaluate family 9 2 ann = Ok ann_e /\ validate family 9 [] 2 ann_e = Ok tt /\ evaluate family 9 2 ann_e = Ok ann_e /\ evaluate family 4 2 ann = Err RecursionError.
Proof. repeat split. Qed.
Example ann_places : Evaluated family 2 ann ann_e /\ TypeAt family 2 [Key "friends"; Pos 0; Key "x_a"]%string 0 /\
  At ann [Key "friends"; Pos 0; Key "x_a"]%string (VBool true) /\ At ann_e [Key "friends"; Pos 0; Key "x_a"]%string (VStr "True").
Proof.
  split; [apply evaluate_iff; exists 9; reflexivity|]. split.
  - eapply (ta_key family 2 person_o _ 3); [reflexivity|apply pt_declared; reflexivity|].
    eapply (ta_pos family 3 friends_a _ 2); [reflexivity|apply et_all; reflexivity|].
    eapply (ta_key family 2 person_o _ 0); [reflexivity|eapply (pt_pattern person_o _ [] _ 0 []); try reflexivity; intros q []|constructor].
  - split; (eapply at_key; [reflexivity|]; eapply at_pos; [reflexivity|reflexivity|]; eapply at_key; [reflexivity|]; constructor).
Qed.
(** a scalar of a default: the friend given as null *)
Example ann_default : At ann_e [Key "friends"; Pos 1; Key "name"]%string (VStr "nobody") /\ At ann [Key "friends"; Pos 1]%string VNone.
Proof. split; repeat (first [eapply at_key; [reflexivity|] | eapply at_pos; [reflexivity|reflexivity|]]); constructor. Qed.
Example family_refused :
  evaluate family 9 2 (VDict [("weight", VInt 3)])%string = Err KeyError /\
  evaluate family 9 2 (VDict [("name", VInt 3)])%string = Err ConversionError /\
  evaluate family 9 2 (VDict [("friends", VList [VDict [("age", VInt (-1))]])])%string = Err ValidationError /\
  evaluate family 9 3 (VList [VNone; VNone; VNone]) = Err ValidationError /\
  evaluate family 9 2 (VDict []) = Ok (VDict [("name", VNone)])%string.
Proof. repeat split. Qed.
(** a default is converted where it is the value evaluated, and left as it is where it is that of a member *)
Definition lazy_family (t : nat) : node :=
  match t with
  | 0 => NScal {| sc_conv := sc_conv age_s; sc_val := fun _ => Ok tt; sc_default := VStr "seven" |}
  | _ => NObj {| o_props := [("age", 0)]%string; o_pats := []; o_add := None; o_req := ["age"]%string; o_js := fun _ => Ok tt; o_default := VDict [] |}
  end.
Theorem default_conversion_refuted : exists tys t u k d w, default_of tys u = d /\ evaluate tys 9 u VNone = Ok w /\ w <> d /\
  evaluate tys 9 t (VDict [(k, VNone)]) = Ok (VDict [(k, d)]) /\ evaluate tys 9 t (VDict [(k, d)]) = Ok (VDict [(k, w)]).
Proof. exists lazy_family, 1, 0, "age"%string, (VStr "seven"), (VInt 7). repeat split; discriminate. Qed.
Print Assumptions default_conversion_refuted.
Example tuple_cases : let tt3 t := match t with 0 => NScal text_s | _ => NArr {| a_items := inl 0; a_unique := false; a_tuple := true; a_js := fun _ => Ok tt; a_default := VTup [] |} end in
  evaluate tt3 9 1 (VList []) = Ok (VTup []) /\ evaluate tt3 9 1 (VList [VStr "a"]) = Err TypeError.
Proof. split; reflexivity. Qed.
Example letters_case : let arr t := match t with 0 => NScal text_s | _ => NArr {| a_items := inl 0; a_unique := false; a_tuple := false; a_js := fun _ => Ok tt; a_default := VList [] |} end in
  evaluate arr 9 1 (VStr "ab") = Ok (VList [VStr "a"; VStr "b"]).
Proof. reflexivity. Qed.
(** the hypotheses of [evaluate_idempotent] *)
Example family_stable : StableScalars family /\ ConvertedDefaults family /\ RequiredOnce family.
Proof.
  split; [|split].
  - intros [|[|[|t]]] s v w e; cbn in e; try discriminate e; injection e as <-; cbn [sc_conv text_s age_s].
    + destruct v; try discriminate; intros q _; injection q as <-; reflexivity.
    + destruct v as [| | |s| | | |]; try discriminate; [intros q _; injection q as <-; reflexivity|].
      intros q n. assert (D : w = VInt 7 \/ w = VNone).
      { clear n. revert q. repeat match goal with |- context [match ?x with _ => _ end] => destruct x end; intros q; try discriminate q; injection q as <-; auto. }
      destruct D as [->| ->]; [reflexivity|congruence].
  - intros [|[|[|t]]] n; cbn in n |- *; [congruence| | |].
    + eapply conv_scal; reflexivity.
    + eapply (conv_obj family 2 person_o _ [("name", VStr "nobody")]%string [("name", VStr "nobody")]%string); [reflexivity|reflexivity| |].
      * intros k [<-|[]]. exists 0. apply pt_declared. reflexivity.
      * eapply (cp_cons family person_o _ _ 0); [discriminate|apply pt_declared; reflexivity|eapply conv_scal; reflexivity|constructor].
    + eapply (conv_arr family (S (S (S t))) friends_a _ [] []); [reflexivity|reflexivity|constructor].
  - intros [|[|[|t]]] o e; cbn in e; try discriminate e. injection e as <-. cbn. constructor; [intros []|constructor].
Qed.
Example refused_cases : evaluate family 9 2 (VInt 3) = Err TypeError /\ evaluate family 9 3 (VInt 3) = Err TypeError.
Proof. split; reflexivity. Qed.
