From Coq Require Import Permutation.
From Verif Require Import ChainMap_Model ChainMap_Spec.

Section Proofs.
  Context {K V : Type} {EK : EqDec K}.
  Notation cmap := (cmap K V).

  Lemma cmap_ind2 (P : cmap -> Prop) :
    (forall d, P (Plain d)) -> (forall ms, Forall P ms -> P (Chain ms)) -> forall m, P m.
  Proof.
    intros hp hc. fix IH 1. intros [d|ms]; [apply hp|]. apply hc.
    induction ms as [|m ms IHms]; constructor; [apply IH|exact IHms].
  Qed.

  Lemma cm_wf_chain (ms : list cmap) : cm_wf (Chain ms) <-> Forall cm_wf ms.
  Proof. simpl. induction ms as [|m ms IH]; split; intros h; try exact I; try constructor.
         - apply h. - apply IH, h. - inversion h; assumption. - inversion h; subst. apply IH; assumption. Qed.

  Lemma cm_lookup_cons k (m : cmap) ms :
    cm_lookup k (Chain (m :: ms)) = match cm_lookup k m with Some v => Some v | None => cm_lookup k (Chain ms) end.
  Proof. reflexivity. Qed.

  Lemma cm_lookup_app k (ms1 ms2 : list cmap) :
    cm_lookup k (Chain (ms1 ++ ms2)) =
    match cm_lookup k (Chain ms1) with Some v => Some v | None => cm_lookup k (Chain ms2) end.
  Proof. induction ms1 as [|m ms IH]; [reflexivity|]. cbn [app]. rewrite !cm_lookup_cons.
         destruct (cm_lookup k m); [reflexivity|apply IH]. Qed.

  Lemma HasKey_chain_inv k (ms : list cmap) : HasKey k (Chain ms) -> exists m, In m ms /\ HasKey k m.
  Proof. intros h. inversion h; subst. eauto. Qed.

  Lemma cm_lookup_HasKey k : forall m : cmap, HasKey k m <-> exists v, cm_lookup k m = Some v.
  Proof.
    apply cmap_ind2.
    - intros d. split.
      + intros h. inversion h; subst. apply dkeys_dget. assumption.
      + intros [v h]. constructor. eapply dget_Some_key. exact h.
    - intros ms IH. induction IH as [|m ms Hm _ IHms].
      + split; [intros h; apply HasKey_chain_inv in h; destruct h as (m & [] & _)|intros [v h]; discriminate].
      + rewrite cm_lookup_cons. split.
        * intros h. apply HasKey_chain_inv in h. destruct h as (m' & [->|i] & h').
          -- apply Hm in h'. destruct h' as [v e]. rewrite e. eauto.
          -- destruct (cm_lookup k m); [eauto|]. apply IHms. econstructor; eassumption.
        * intros [v e]. destruct (cm_lookup k m) as [w|] eqn:em.
          -- apply HK_chain with m; [left; reflexivity|]. apply Hm. eauto.
          -- assert (h : HasKey k (Chain ms)) by (apply IHms; eauto).
             apply HasKey_chain_inv in h. destruct h as (m' & i & h'). apply HK_chain with m'; [right|]; assumption.
  Qed.

  Lemma not_HasKey_lookup k (m : cmap) : ~ HasKey k m <-> cm_lookup k m = None.
  Proof. rewrite cm_lookup_HasKey. destruct (cm_lookup k m) as [v|]; split; intros h; try congruence.
         - destruct h. eauto. - intros [v e]. discriminate. Qed.

  Lemma cm_lookup_Gives k v : forall m : cmap, cm_wf m -> (cm_lookup k m = Some v <-> Gives k v m).
  Proof.
    apply (cmap_ind2 (fun m => cm_wf m -> (cm_lookup k m = Some v <-> Gives k v m))).
    - intros d wf. split.
      + intros h. constructor. apply dget_In. exact h.
      + intros h. inversion h; subst. apply In_dget; assumption.
    - intros ms IH wf. apply cm_wf_chain in wf. split.
      + induction ms as [|m ms IHms]; [discriminate|]. rewrite cm_lookup_cons.
        inversion IH as [|? ? Hm IH']; subst. inversion wf as [|? ? wm wf']; subst.
        destruct (cm_lookup k m) as [w|] eqn:em.
        * intros e. rewrite e in *. apply (@G_chain K V k v [] m ms); [simpl; tauto|]. apply Hm; auto.
        * intros e. specialize (IHms IH' wf' e). inversion IHms as [|pre m' post nk g e']; subst.
          apply (@G_chain K V k v (m :: pre) m' post); [|exact g].
          intros x [<-|i]; [apply not_HasKey_lookup; exact em|auto].
      + intros g. inversion g as [|pre m' post nk g' e']; subst. clear g.
        rewrite Forall_forall in IH, wf. rewrite cm_lookup_app.
        replace (cm_lookup k (Chain pre)) with (@None V).
        * rewrite cm_lookup_cons. assert (i : In m' (pre ++ m' :: post)) by (rewrite in_app_iff; simpl; auto).
          rewrite (proj2 (IH m' i (wf m' i)) g'). reflexivity.
        * symmetry. clear -nk. induction pre as [|x pre IHp]; [reflexivity|]. rewrite cm_lookup_cons.
          rewrite (proj1 (not_HasKey_lookup k x)); [|apply nk; left; reflexivity].
          apply IHp. intros y hy. apply nk. right. exact hy.
  Qed.

  Lemma cm_getitem_spec (m : cmap) k : cm_wf m ->
    (forall v, cm_getitem m k = Ok v <-> Gives k v m) /\
    (cm_getitem m k = Err KeyError <-> ~ HasKey k m) /\
    (cm_contains k m = true <-> exists v, cm_getitem m k = Ok v).
  Proof.
    intros wf. unfold cm_getitem. split; [|split].
    - intros v. rewrite <- (cm_lookup_Gives k v m wf). destruct (cm_lookup k m); split; congruence.
    - rewrite not_HasKey_lookup. destruct (cm_lookup k m); split; congruence.
    - assert (hc : cm_contains k m = true <-> HasKey k m).
      { clear wf. revert m. apply cmap_ind2.
        - intros d. simpl. rewrite dmem_In. split; [intros; constructor; assumption|intros h; inversion h; assumption].
        - intros ms IH. simpl. rewrite existsb_exists. rewrite Forall_forall in IH. split.
          + intros (x & i & h). apply HK_chain with x; [exact i|]. apply IH; assumption.
          + intros h. apply HasKey_chain_inv in h. destruct h as (x & i & h). exists x. split; [exact i|]. apply IH; assumption. }
      rewrite hc, cm_lookup_HasKey. destruct (cm_lookup k m); split; intros [x e]; eauto; congruence.
  Qed.

  (** ** Iteration *)
  Lemma cm_iter_HasKey k : forall m : cmap, In k (cm_iter m) <-> HasKey k m.
  Proof.
    apply cmap_ind2.
    - intros d. simpl. split; [intros; constructor; assumption|intros h; inversion h; assumption].
    - intros ms IH. simpl. rewrite dedup_In, in_flat_map. rewrite Forall_forall in IH. split.
      + intros (x & i & h). apply HK_chain with x; [exact i|]. apply IH; assumption.
      + intros h. apply HasKey_chain_inv in h. destruct h as (x & i & h). exists x. split; [exact i|]. apply IH; assumption.
  Qed.

  Lemma cm_rev_HasKey k : forall m : cmap, In k (cm_reversed_keys m) <-> HasKey k m.
  Proof.
    apply cmap_ind2.
    - intros d. simpl. split; [intros; constructor; assumption|intros h; inversion h; assumption].
    - intros ms IH. simpl. rewrite dedup_In, in_concat. rewrite Forall_forall in IH. split.
      + intros (x & i & h). rewrite <- in_rev in i. apply in_map_iff in i. destruct i as (m & <- & i).
        apply HK_chain with m; [exact i|]. apply IH; assumption.
      + intros h. apply HasKey_chain_inv in h. destruct h as (x & i & h). exists (cm_reversed_keys x).
        split; [rewrite <- in_rev; apply in_map; exact i|]. apply IH; assumption.
  Qed.

  Lemma cm_iter_NoDup (m : cmap) : cm_wf m -> NoDup (cm_iter m).
  Proof. destruct m; simpl; [intros h; exact h|intros _; apply dedup_NoDup]. Qed.
  Lemma cm_rev_NoDup (m : cmap) : cm_wf m -> NoDup (cm_reversed_keys m).
  Proof. destruct m; simpl; [intros h; exact h|intros _; apply dedup_NoDup]. Qed.

  Lemma dedup_from_app (l1 l2 : list K) : forall seen,
    dedup_from seen (l1 ++ l2) = dedup_from seen l1 ++ dedup_from (rev (dedup_from seen l1) ++ seen) l2.
  Proof.
    induction l1 as [|x l1 IH]; intros seen; simpl; [reflexivity|].
    destruct (mem x seen) eqn:e; [rewrite IH; reflexivity|].
    simpl. rewrite IH. f_equal. f_equal. rewrite <- app_assoc. reflexivity.
  Qed.

  Lemma dedup_from_ext (l : list K) : forall s1 s2,
    (forall x, In x s1 <-> In x s2) -> dedup_from s1 l = dedup_from s2 l.
  Proof.
    induction l as [|x l IH]; intros s1 s2 h; simpl; [reflexivity|].
    assert (e : mem x s1 = mem x s2).
    { destruct (mem_spec EK x s1) as [i|n], (mem_spec EK x s2) as [i'|n']; try reflexivity; destruct (h x); tauto. }
    rewrite e. destruct (mem x s2); [apply IH; exact h|]. f_equal. apply IH. intros y. simpl. specialize (h y). tauto.
  Qed.

  (** removing repeats of a prefix that is already deduplicated changes nothing *)
  Lemma dedup_from_dedup (l : list K) : forall seen s2, (forall x, In x s2 -> In x seen) ->
    dedup_from seen (dedup_from s2 l) = dedup_from seen l.
  Proof.
    induction l as [|x l IH]; intros seen s2 h; simpl; [reflexivity|].
    destruct (mem_spec EK x s2) as [i2|n2].
    - destruct (mem_spec EK x seen) as [i|n]; [apply IH; exact h|destruct n; auto].
    - simpl. destruct (mem_spec EK x seen) as [i|n].
      + apply IH. intros y [<-|hy]; auto.
      + f_equal. apply IH. simpl. intros y [<-|hy]; auto.
  Qed.

  Lemma dedup_app_congr (l1 l1' l2 l2' : list K) :
    dedup l1 = dedup l1' -> dedup l2 = dedup l2' -> dedup (l1 ++ l2) = dedup (l1' ++ l2').
  Proof.
    unfold dedup. intros h1 h2. rewrite !dedup_from_app, h1. f_equal.
    rewrite <- (dedup_from_dedup l2 _ []) by (simpl; tauto).
    rewrite h2. rewrite dedup_from_dedup by (simpl; tauto). reflexivity.
  Qed.

  Lemma dedup_flat_map_congr {A} (f g : A -> list K) (l : list A) :
    (forall x, In x l -> dedup (f x) = dedup (g x)) -> dedup (flat_map f l) = dedup (flat_map g l).
  Proof.
    induction l as [|x l IH]; intros h; simpl; [reflexivity|].
    apply dedup_app_congr; [apply h; left; reflexivity|]. apply IH. intros y hy. apply h. right. exact hy.
  Qed.

  Lemma dedup_dedup (l : list K) : dedup (dedup l) = dedup l.
  Proof. apply dedup_from_dedup. simpl. tauto. Qed.

  Lemma cm_iter_flat : forall m : cmap, dedup (cm_iter m) = dedup (flat_map dkeys (cm_flatten m)).
  Proof.
    apply cmap_ind2.
    - intros d. simpl. rewrite app_nil_r. reflexivity.
    - intros ms IH. simpl. rewrite dedup_dedup. rewrite Forall_forall in IH.
      rewrite (dedup_flat_map_congr _ (fun x => flat_map dkeys (cm_flatten x)) ms IH).
      f_equal. clear IH. induction ms as [|m ms IHms]; simpl; [reflexivity|]. rewrite flat_map_app, IHms. reflexivity.
  Qed.

  Lemma dedup_FirstAppearance (l : list K) : FirstAppearance l (dedup l).
  Proof.
    induction l as [|x l IH] using rev_ind; [constructor|].
    unfold dedup. rewrite dedup_from_app. fold (dedup l). simpl. rewrite app_nil_r.
    destruct (mem_spec EK x (rev (dedup l))) as [i|n].
    - rewrite app_nil_r. apply FA_old; [exact IH|]. rewrite <- in_rev, dedup_In in i. exact i.
    - apply FA_new; [exact IH|]. rewrite <- in_rev, dedup_In in n. exact n.
  Qed.

  Lemma cm_iter_first_appearance (ms : list cmap) : FirstAppearance (flat_map (@dkeys K V) (cm_flatten (Chain ms))) (cm_iter (Chain ms)).
  Proof.
    replace (cm_iter (Chain ms)) with (dedup (cm_iter (Chain ms))).
    - rewrite cm_iter_flat. apply dedup_FirstAppearance.
    - simpl. apply dedup_dedup.
  Qed.

  Lemma cm_rev_flat : forall m : cmap, dedup (cm_reversed_keys m) = dedup (flat_map dkeys (rev (cm_flatten m))).
  Proof.
    apply cmap_ind2.
    - intros d. simpl. rewrite app_nil_r. reflexivity.
    - intros ms IH. simpl. rewrite dedup_dedup. rewrite Forall_forall in IH.
      induction ms as [|m ms IHms]; simpl; [reflexivity|].
      rewrite concat_app. simpl. rewrite app_nil_r. rewrite rev_app_distr, flat_map_app.
      apply dedup_app_congr; [apply IHms; intros; apply IH; right; assumption|apply IH; left; reflexivity].
  Qed.

  Lemma cm_reversed_first_appearance (ms : list cmap) :
    FirstAppearance (flat_map (@dkeys K V) (rev (cm_flatten (Chain ms)))) (cm_reversed_keys (Chain ms)).
  Proof.
    replace (cm_reversed_keys (Chain ms)) with (dedup (cm_reversed_keys (Chain ms))).
    - rewrite cm_rev_flat. apply dedup_FirstAppearance.
    - simpl. apply dedup_dedup.
  Qed.

  Lemma cm_iter_spec (m : cmap) : cm_wf m ->
    NoDup (cm_iter m) /\ (forall k, In k (cm_iter m) <-> HasKey k m) /\ cm_len m = length (cm_iter m).
  Proof. intros wf. split; [apply cm_iter_NoDup, wf|]. split; [intros; apply cm_iter_HasKey|].
         destruct m; simpl; [unfold dkeys; rewrite map_length; reflexivity|reflexivity]. Qed.

  Lemma cm_reversed_spec (m : cmap) : cm_wf m ->
    NoDup (cm_reversed_keys m) /\ (forall k, In k (cm_reversed_keys m) <-> HasKey k m).
  Proof. intros wf. split; [apply cm_rev_NoDup, wf|intros; apply cm_rev_HasKey]. Qed.

  Lemma cm_reversed_perm (m : cmap) : cm_wf m -> Permutation (cm_reversed_keys m) (cm_iter m).
  Proof. intros wf. apply NoDup_Permutation; [apply cm_rev_NoDup, wf|apply cm_iter_NoDup, wf|].
         intros x. rewrite cm_rev_HasKey, cm_iter_HasKey. reflexivity. Qed.

  (** ** merged *)
  Lemma fold_set_get (m : cmap) (ks : list K) : forall (r : dict K V) k,
    dget k (fold_left (fun r k => match cm_lookup k m with Some v => dset k v r | None => r end) ks r) =
    if mem k ks then match cm_lookup k m with Some v => Some v | None => dget k r end else dget k r.
  Proof.
    induction ks as [|x ks IH]; intros r k; cbn [fold_left mem]; [reflexivity|].
    rewrite IH. destruct (eq_dec k x) as [->|n].
    - destruct (cm_lookup x m) as [v|]; [rewrite dget_dset_same|]; destruct (mem x ks); reflexivity.
    - destruct (cm_lookup x m) as [v|]; [rewrite dget_dset_other by exact n|]; reflexivity.
  Qed.
  Lemma fold_set_wf (m : cmap) (ks : list K) : forall r : dict K V, dwf r ->
    dwf (fold_left (fun r k => match cm_lookup k m with Some v => dset k v r | None => r end) ks r).
  Proof. induction ks as [|x ks IH]; intros r h; cbn [fold_left]; [exact h|]. apply IH.
         destruct (cm_lookup x m); [apply dwf_dset|]; exact h. Qed.

  Variable ord : list K -> list K.
  Hypothesis ord_perm : forall l, Permutation (ord l) l.

  Lemma cm_merge_step_get (r : dict K V) (m : cmap) k :
    dget k (cm_merge_step ord r m) = match dget k r with Some v => Some v | None => cm_lookup k m end.
  Proof.
    unfold cm_merge_step. rewrite fold_set_get.
    destruct (mem_spec EK k (ord (filter (fun k0 => negb (mem k0 (dkeys r))) (cm_iter m)))) as [i|n].
    - apply (Permutation_in _ (ord_perm _)) in i. apply filter_In in i. destruct i as [_ h].
      apply negb_true_iff, mem_not_In, dget_None in h. rewrite h. destruct (cm_lookup k m); reflexivity.
    - destruct (dget k r) as [v|] eqn:e; [reflexivity|]. destruct (cm_lookup k m) as [v|] eqn:e2; [|reflexivity].
      destruct n. apply (Permutation_in _ (Permutation_sym (ord_perm _))). apply filter_In. split.
      + apply cm_iter_HasKey, cm_lookup_HasKey. eauto.
      + apply negb_true_iff, mem_not_In, dget_None. exact e.
  Qed.

  Lemma cm_merged_get (m : cmap) k : dget k (cm_merged ord m) = cm_lookup k m.
  Proof.
    assert (g : forall (ms : list cmap) (r : dict K V), dget k (fold_left (cm_merge_step ord) ms r) =
                             match dget k r with Some v => Some v | None => cm_lookup k (Chain ms) end).
    { induction ms as [|x ms IH]; intros r; cbn [fold_left].
      - simpl. destruct (dget k r); reflexivity.
      - rewrite IH, cm_merge_step_get, cm_lookup_cons. destruct (dget k r); reflexivity. }
    unfold cm_merged. rewrite g. destruct m as [d|ms]; simpl; [|reflexivity]. destruct (dget k d); reflexivity.
  Qed.

  Lemma cm_merged_wf (m : cmap) : dwf (cm_merged ord m).
  Proof.
    unfold cm_merged. assert (g : forall (ms : list cmap) (r : dict K V), dwf r -> dwf (fold_left (cm_merge_step ord) ms r)).
    { induction ms as [|x ms IH]; intros r h; cbn [fold_left]; [exact h|]. apply IH, fold_set_wf, h. }
    apply g. apply dwf_nil.
  Qed.

  Lemma cm_merged_spec (m : cmap) : cm_wf m ->
    NoDup (map fst (cm_merged ord m)) /\
    (forall k v, In (k, v) (cm_merged ord m) <-> Gives k v m).
  Proof.
    intros wf. split; [apply cm_merged_wf|]. intros k v. rewrite <- (cm_lookup_Gives k v m wf), <- cm_merged_get. split.
    - apply In_dget, cm_merged_wf. - apply dget_In.
  Qed.

  (** ** flattening *)
  Lemma cm_flatten_lookup k : forall m : cmap, cm_lookup k (Chain (map Plain (cm_flatten m))) = cm_lookup k m.
  Proof.
    apply cmap_ind2.
    - intros d. simpl. destruct (dget k d); reflexivity.
    - intros ms IH. induction IH as [|m ms Hm _ IHms]; [reflexivity|].
      cbn [cm_flatten flat_map]. rewrite map_app, cm_lookup_app, Hm, cm_lookup_cons.
      destruct (cm_lookup k m); [reflexivity|]. exact IHms.
  Qed.

  Lemma cm_flatten_getitem (m : cmap) k : cm_getitem (Chain (map Plain (cm_flatten m))) k = cm_getitem m k.
  Proof. unfold cm_getitem. rewrite cm_flatten_lookup. reflexivity. Qed.

  Lemma cm_new_child_get (self : cmap) maps kwargs k :
    cm_lookup k (cm_new_child self maps kwargs) =
    match dget k kwargs with Some v => Some v | None =>
    match cm_lookup k (Chain maps) with Some v => Some v | None => cm_lookup k self end end.
  Proof.
    unfold cm_new_child. rewrite cm_lookup_cons, cm_lookup_app. simpl (cm_lookup k (Plain kwargs)).
    destruct (dget k kwargs); [reflexivity|]. destruct (cm_lookup k (Chain maps)); [reflexivity|].
    destruct self as [d|ms]; simpl; [|reflexivity]. destruct (dget k d); reflexivity.
  Qed.
End Proofs.

Section CtxProofs.
  Context {K V : Type} {EK : EqDec K}.
  Notation cmap := (cmap K V).
  Notation heap := (@heap K V).

  Lemma nth_upd_nth_same {A} (l : list A) : forall n x y, nth_error l n = Some y -> nth_error (upd_nth n x l) n = Some x.
  Proof. induction l as [|a l IH]; intros [|n] x y h; simpl in *; try discriminate; [reflexivity|]. eapply IH; eassumption. Qed.
  Lemma nth_upd_nth_other {A} (l : list A) : forall n m x, n <> m -> nth_error (upd_nth n x l) m = nth_error l m.
  Proof. induction l as [|a l IH]; intros [|n] [|m] x h; simpl; try reflexivity; try congruence. apply IH. congruence. Qed.

  Lemma ctx_step_frame (h : heap) o r : r < length h -> ~ targets o r ->
    forall k, ctx_value (fst (ctx_step h o)) r k = ctx_value h r k.
  Proof.
    intros lt nt k. unfold ctx_value.
    destruct o as [r' ps loc|r' m|r' m|r'|r' k']; simpl in *; destruct (nth_error h r') as [c|] eqn:e; try reflexivity.
    - destruct ps as [|p ps]; [destruct loc as [|p0 loc]|]; simpl; try reflexivity;
        rewrite nth_error_app1 by exact lt; reflexivity.
    - simpl. rewrite nth_upd_nth_other by congruence. reflexivity.
    - simpl. rewrite nth_upd_nth_other by congruence. reflexivity.
    - destruct (c_flat c); simpl; [reflexivity|]. destruct (Nat.eq_dec r' r) as [->|n].
      + rewrite (nth_upd_nth_same _ _ _ _ e), e. reflexivity.
      + rewrite nth_upd_nth_other by exact n. reflexivity.
  Qed.

  Lemma upd_nth_length {A} (l : list A) : forall n x, length (upd_nth n x l) = length l.
  Proof. induction l as [|a l IH]; intros [|n] x; simpl; try reflexivity. rewrite IH. reflexivity. Qed.

  Lemma ctx_step_grows (h : heap) o : length h <= length (fst (ctx_step h o)).
  Proof.
    destruct o as [r' ps loc|r' m|r' m|r'|r' k']; simpl; destruct (nth_error h r') as [c|]; simpl; try lia.
    - destruct ps as [|p ps]; [destruct loc as [|p0 loc]|]; simpl; try lia; rewrite app_length; simpl; lia.
    - rewrite upd_nth_length. lia.
    - rewrite upd_nth_length. lia.
    - destruct (c_flat c); simpl; [lia|]. rewrite upd_nth_length. lia.
  Qed.

  Lemma ctx_run_frame (os : list ctx_op) : forall (h : heap) r, r < length h ->
    (forall o, In o os -> ~ targets o r) -> forall k, ctx_value (ctx_run h os) r k = ctx_value h r k.
  Proof.
    induction os as [|o os IH]; intros h r lt nt k; [reflexivity|].
    unfold ctx_run. cbn [fold_left]. fold (ctx_run (fst (ctx_step h o)) os).
    rewrite IH; [|pose proof (ctx_step_grows h o); lia|intros; apply nt; right; assumption].
    apply ctx_step_frame; [exact lt|]. apply nt. left. reflexivity.
  Qed.

  Lemma child_maps_lookup k (ps ms : list cmap) (loc : dict K V) :
    cm_lookup k (Chain (Plain [] :: (match loc with [] => ps | _ => Plain loc :: ps end) ++ ms)) =
    match dget k loc with Some v => Some v | None =>
    match cm_lookup k (Chain ps) with Some v => Some v | None => cm_lookup k (Chain ms) end end.
  Proof.
    rewrite cm_lookup_cons. change (cm_lookup k (Plain [])) with (@None V). cbn beta iota.
    destruct loc as [|q loc].
    - rewrite cm_lookup_app. reflexivity.
    - change ((Plain (q :: loc) :: ps) ++ ms) with (Plain (q :: loc) :: (ps ++ ms)).
      rewrite cm_lookup_cons, cm_lookup_app. reflexivity.
  Qed.

  Lemma create_child_lookup (h : heap) r ps loc h' r' k :
    ctx_step h (CreateChild r ps loc) = (h', ORef r') ->
    ctx_value h' r' k =
      Some (match dget k loc with Some v => Ok v | None =>
            match cm_lookup k (Chain ps) with Some v => Ok v | None =>
            match ctx_value h r k with Some x => x | None => Err KeyError end end end).
  Proof.
    unfold ctx_value. cbn [ctx_step]. destruct (nth_error h r) as [c|] eqn:e; [|discriminate].
    assert (g : forall ps' (loc' : dict K V), ps' = ps -> loc' = loc ->
      (h ++ [{| c_maps := Plain [] :: (match loc' with [] => ps' | _ => Plain loc' :: ps' end) ++ c_maps c; c_flat := None |}],
        @ORef K V (length h)) = (h', ORef r') ->
      match nth_error h' r' with Some c0 => Some (cm_getitem (Chain (c_maps c0)) k) | None => None end =
      Some (match dget k loc with Some v => Ok v | None =>
            match cm_lookup k (Chain ps) with Some v => Ok v | None => cm_getitem (Chain (c_maps c)) k end end)).
    { intros ps' loc' -> ->. injection 1 as <- <-. rewrite nth_error_app2, Nat.sub_diag by lia. cbn [nth_error c_maps].
      unfold cm_getitem. rewrite child_maps_lookup. destruct (dget k loc); [reflexivity|].
      destruct (cm_lookup k (Chain ps)); reflexivity. }
    destruct ps as [|p ps]; [destruct loc as [|q loc]|].
    - injection 1 as <- <-. rewrite e. reflexivity.
    - exact (g _ _ eq_refl eq_refl).
    - exact (g _ _ eq_refl eq_refl).
  Qed.

  (** ** The cached flat list *)
  Definition cache_ok (c : ctx (K := K) (V := V)) : Prop :=
    match c_flat c with None => True | Some l => l = cm_flatten (Chain (c_maps c)) end.

  Lemma Forall_upd_nth {A} (P : A -> Prop) (l : list A) : forall n x, Forall P l -> P x -> Forall P (upd_nth n x l).
  Proof. induction l as [|a l IH]; intros [|n] x h hx; simpl; try constructor; inversion h; subst; auto. Qed.

  Lemma ctx_step_cache_ok (h : heap) o : Forall cache_ok h -> (forall r, ~ targets o r) ->
    Forall cache_ok (fst (ctx_step h o)).
  Proof.
    intros ok nt. destruct o as [r' ps loc|r' m|r' m|r'|r' k']; cbn [ctx_step]; destruct (nth_error h r') as [c|] eqn:e;
      try exact ok; simpl in nt.
    - assert (g : forall x, Forall cache_ok (h ++ [{| c_maps := x; c_flat := None |}])).
      { intros x. apply Forall_app. split; [exact ok|]. constructor; [exact I|constructor]. }
      destruct ps as [|p ps]; [destruct loc as [|q loc]|]; [exact ok|apply g|apply g].
    - destruct (nt r' eq_refl).
    - destruct (nt r' eq_refl).
    - destruct (c_flat c) eqn:ef; [exact ok|]. cbn [fst]. apply Forall_upd_nth; [exact ok|]. reflexivity.
  Qed.

  Lemma ctx_run_cache_ok (os : list ctx_op) : forall h : heap, Forall cache_ok h ->
    (forall o r, In o os -> ~ targets o r) -> Forall cache_ok (ctx_run h os).
  Proof.
    induction os as [|o os IH]; intros h ok nt; [exact ok|].
    unfold ctx_run. cbn [fold_left]. fold (ctx_run (fst (ctx_step h o)) os). apply IH.
    - apply ctx_step_cache_ok; [exact ok|]. intros r. apply nt. left. reflexivity.
    - intros o' r i. apply nt. right. exact i.
  Qed.

  Lemma flattened_fresh (os : list ctx_op) (h : heap) :
    (forall c, In c h -> c_flat c = None) ->
    (forall o r, In o os -> ~ targets o r) ->
    forall r l, snd (ctx_step (ctx_run h os) (Flattened r)) = OFlat l ->
    forall k, Some (cm_getitem (Chain (map Plain l)) k) = ctx_value (ctx_run h os) r k.
  Proof.
    intros h0 nt r l. assert (ok : Forall cache_ok (ctx_run h os)).
    { apply ctx_run_cache_ok; [|exact nt]. apply Forall_forall. intros c i. unfold cache_ok. rewrite (h0 c i). exact I. }
    unfold ctx_value. cbn [ctx_step]. destruct (nth_error (ctx_run h os) r) as [c|] eqn:e; [|discriminate].
    rewrite Forall_forall in ok. specialize (ok c (nth_error_In _ _ e)). unfold cache_ok in ok.
    destruct (c_flat c) as [l0|]; cbn [snd]; injection 1 as <-; intros k; [rewrite ok|]; f_equal; exact (cm_flatten_getitem (Chain (c_maps c)) k).
  Qed.
End CtxProofs.
