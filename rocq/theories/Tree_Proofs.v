From Verif Require Export Tree_Spec.
From Verif Require Import Coll_Proofs Ns_Proofs Uri_Proofs Types_Proofs.
Local Open Scope char_scope.
Local Open Scope list_scope.

Lemma parent_in_out k self ctx : parent_in k self ctx = first_object self ctx.
Proof. unfold parent_in. destruct k; simpl; [rewrite Nat.eqb_refl|]; reflexivity. Qed.
Lemma iparent_in_out k self ctx : instance_parent_in k self ctx = first_instance self ctx.
Proof. unfold instance_parent_in. destruct k as [[|]|]; simpl; try rewrite Nat.eqb_refl; reflexivity. Qed.

Lemma first_object_none self ctx : (forall n i, ~ In (MObj n i) ctx) -> first_object self ctx = None.
Proof. induction ctx as [|[n i|] ctx IH]; simpl; intros H; [reflexivity| |].
       - exfalso. apply (H n i). left. reflexivity.
       - apply IH. intros n i hin. apply (H n i). right. exact hin. Qed.
Lemma first_instance_none self ctx : (forall n i, ~ In (MObj n i) ctx) -> first_instance self ctx = None.
Proof. induction ctx as [|[n i|] ctx IH]; simpl; intros H; [reflexivity| |].
       - exfalso. apply (H n i). left. reflexivity.
       - apply IH. intros n i hin. apply (H n i). right. exact hin. Qed.

Lemma first_object_member self base outer : (forall n i, ~ In (MObj n i) base) -> ~ In self (map fst outer) ->
  match first_object self (member_context base outer) with
  | Some p => exists near far i, outer = near ++ (p, KObj i) :: far /\ forall c, In c near -> snd c = KArr
  | None => forall c, In c outer -> snd c = KArr
  end.
Proof.
  intros hb. induction outer as [|[n k] outer IH]; intros hin; simpl.
  - rewrite first_object_none by exact hb. intros c [].
  - simpl in hin. destruct k as [i|]; simpl.
    + destruct (Nat.eqb_spec n self) as [e|ne]; [exfalso; apply hin; left; exact e|].
      exists [], outer, i. split; [reflexivity|]. intros c [].
    + assert (h2 : ~ In self (map fst outer)) by (intro; apply hin; right; assumption).
      specialize (IH h2). destruct (first_object self (member_context base outer)) as [p|].
      * destruct IH as (near & far & i & e & h). exists ((n, KArr) :: near), far, i. split; [rewrite e; reflexivity|].
        intros c [<-|hc]; [reflexivity|apply h; exact hc].
      * intros c [<-|hc]; [reflexivity|apply IH; exact hc].
Qed.
Lemma first_instance_member self base outer : (forall n i, ~ In (MObj n i) base) -> ~ In self (map fst outer) ->
  match first_instance self (member_context base outer) with
  | Some p => exists near far, outer = near ++ (p, KObj true) :: far /\ forall c, In c near -> snd c <> KObj true
  | None => forall c, In c outer -> snd c <> KObj true
  end.
Proof.
  intros hb. induction outer as [|[n k] outer IH]; intros hin; simpl.
  - rewrite first_instance_none by exact hb. intros c [].
  - simpl in hin. assert (h2 : ~ In self (map fst outer)) by (intro; apply hin; right; assumption).
    specialize (IH h2). destruct k as [[|]|]; simpl.
    + destruct (Nat.eqb_spec n self) as [e|ne]; [exfalso; apply hin; left; exact e|]. simpl.
      exists [], outer. split; [reflexivity|]. intros c [].
    + destruct (first_instance self (member_context base outer)) as [p|].
      * destruct IH as (near & far & e & h). exists ((n, KObj false) :: near), far. split; [rewrite e; reflexivity|].
        intros c [<-|hc]; [discriminate|apply h; exact hc].
      * intros c [<-|hc]; [discriminate|apply IH; exact hc].
    + destruct (first_instance self (member_context base outer)) as [p|].
      * destruct IH as (near & far & e & h). exists ((n, KArr) :: near), far. split; [rewrite e; reflexivity|].
        intros c [<-|hc]; [discriminate|apply h; exact hc].
      * intros c [<-|hc]; [discriminate|apply IH; exact hc].
Qed.

Lemma Line_nonempty up i l : Line up i l -> exists l', l = i :: l'.
Proof. intros H. destruct H; eexists; reflexivity. Qed.
Lemma ljoin_app_last sep ws w : ws <> [] -> ljoin sep (ws ++ [w]) = ljoin sep ws ++ sep ++ w.
Proof.
  induction ws as [|x ws IH]; intros hne; [congruence|].
  destruct ws as [|y ws].
  - simpl. reflexivity.
  - change ((x :: y :: ws) ++ [w]) with (x :: ((y :: ws) ++ [w])).
    rewrite ljoin_cons by (destruct ws; discriminate). rewrite IH by discriminate.
    rewrite (ljoin_cons sep x (y :: ws)) by discriminate. rewrite <- !app_assoc. reflexivity.
Qed.

(** the name printed for an instance whose ancestors are [l] *)
Definition printed (h : heap) (l : list nat) : str := dotted (rev (map (fun j => shown (own_name (h j))) l)).

Lemma canonical_line h i l : Line (fun j => n_iparent (h j)) i l -> forall limit, length l <= limit ->
  exists r, canonical_name limit h i = Ok r /\ shown r = printed h l /\ (l = [i] -> r = own_name (h i)) /\ (l <> [i] -> r <> None).
Proof.
  intros H. induction H as [i e|i p l e H IH]; intros limit hl.
  - destruct limit as [|limit]; [simpl in hl; lia|]. simpl. rewrite e. exists (own_name (h i)).
    repeat split; congruence.
  - destruct limit as [|limit]; [simpl in hl; lia|]. simpl in hl |- *. rewrite e.
    destruct (IH limit ltac:(lia)) as (r & hr & hs & _). rewrite hr. simpl. eexists. split; [reflexivity|].
    split; [|split; intros; congruence || idtac].
    + simpl. unfold printed, dotted. simpl. rewrite ljoin_app_last.
      * rewrite hs. reflexivity.
      * destruct (Line_nonempty _ _ _ H) as (l' & ->). simpl. destruct (rev _); discriminate.
    + exfalso. destruct (Line_nonempty _ _ _ H) as (l' & ->). congruence.
Qed.

Lemma canonical_ok_line h limit : forall i r, canonical_name limit h i = Ok r -> exists l, Line (fun j => n_iparent (h j)) i l /\ length l <= limit.
Proof.
  induction limit as [|limit IH]; intros i r; simpl; [discriminate|].
  destruct (n_iparent (h i)) as [p|] eqn:e.
  - destruct (canonical_name limit h p) as [pn|] eqn:e2; [|discriminate]. intros _.
    destruct (IH _ _ e2) as (l & hl & hlen). exists (i :: l). split; [apply Line_up with p; assumption|simpl; lia].
  - intros _. exists [i]. split; [apply Line_top; exact e|simpl; lia].
Qed.
Lemma canonical_err h limit : forall i e, canonical_name limit h i = Err e -> e = RecursionError.
Proof.
  induction limit as [|limit IH]; intros i e; simpl; [congruence|].
  destruct (n_iparent (h i)) as [p|]; [|discriminate].
  destruct (canonical_name limit h p) eqn:e2; simpl; intros H; [discriminate|]. injection H as <-. eapply IH; exact e2.
Qed.

Lemma root_line h i l : Line (fun j => n_parent (h j)) i l -> (forall a, In a (tl l) -> n_size (h a) <> 0) ->
  forall limit, length l <= limit -> root limit h i = Ok (last l i).
Proof.
  intros H. induction H as [i e|i p l e H IH]; intros hs limit hl.
  - destruct limit; [simpl in hl; lia|]. simpl. rewrite e. reflexivity.
  - destruct limit; [simpl in hl; lia|]. simpl in hl |- *. rewrite e.
    destruct (Line_nonempty _ _ _ H) as (l' & ->).
    destruct (Nat.eqb_spec (n_size (h p)) 0) as [z|nz]; [exfalso; apply (hs p); [left; reflexivity|exact z]|].
    rewrite IH; [|intros a ha; apply hs; right; exact ha|simpl in hl |- *; lia].
    f_equal. destruct l' as [|q l']; [reflexivity|].
    change (last (p :: q :: l') i) with (last (q :: l') i). change (last (p :: q :: l') p) with (last (q :: l') p).
    clear. revert q. induction l' as [|x l' IH]; intros q; [reflexivity|]. simpl in *. apply IH.
Qed.

(** * split_cname *)
Lemma decimal_digits n c : In c (decimal n) -> 48 <= nat_of_ascii c <= 57.
Proof.
  unfold decimal. generalize (Nat.to_uint n). intros d. induction d; simpl; intros H; try contradiction;
    destruct H as [<-|H]; try (apply IHd; exact H); vm_compute; lia.
Qed.
Lemma decimal_no n c : (nat_of_ascii c < 48 \/ 57 < nat_of_ascii c) -> ~ In c (decimal n).
Proof. intros h hin. apply decimal_digits in hin. lia. Qed.

Lemma lstrip_free cs w : (forall c, In c w -> ~ In c cs) -> lstrip cs w = w.
Proof. destruct w as [|x w]; intros H; [reflexivity|]. apply lstrip_id. apply H. left. reflexivity. Qed.
Lemma strip_one_closed c w : ~ In c w -> w <> [] -> strip [c] (w ++ [c]) = w.
Proof.
  intros hin hne. unfold strip.
  assert (e1 : lstrip [c] (w ++ [c]) = w ++ [c]).
  { destruct w as [|x w]; [congruence|]. simpl app. apply lstrip_id. intros [e|[]]. apply hin. left. exact (eq_sym e). }
  rewrite e1, rev_app_distr. simpl.
  destruct (ascii_dec c c) as [_|n]; [|congruence].
  unfold eq_dec. try (destruct (EqDec_ascii c c) as [_|n]; [|congruence]).
  rewrite lstrip_free; [apply rev_involutive|]. intros x hx [e|[]]. subst x. apply hin. apply in_rev. exact hx.
Qed.
Lemma decimal_nonempty n : decimal n <> [].
Proof. intro e. assert (H := parse_decimal n). rewrite e in H. discriminate. Qed.

Lemma split_positions is : forall w, ~ In "[" w ->
  split_char "[" (w ++ flat_map (fun i => "[" :: decimal i ++ ["]"]) is) = w :: map (fun i => decimal i ++ ["]"]) is.
Proof.
  induction is as [|i is IH]; intros w hw; simpl.
  - rewrite app_nil_r. apply split_char_free. exact hw.
  - rewrite split_char_app by exact hw. f_equal. apply IH. intro hin. apply in_app_iff in hin.
    destruct hin as [hin|[e|[]]]; [|discriminate]. revert hin. apply decimal_no. vm_compute. lia.
Qed.
Lemma indices_decimal is : indices (map (fun i => decimal i ++ ["]"]) is) = Ok (map (fun i => SIdx (Z.of_nat i)) is).
Proof.
  induction is as [|i is IH]; [reflexivity|]. simpl.
  rewrite strip_one_closed; [|apply decimal_no; vm_compute; lia|apply decimal_nonempty].
  rewrite parse_decimal, IH. reflexivity.
Qed.
Lemma split_part_positions p : ~ In "[" (fst p) -> split_part (with_positions p) = Ok (SName (fst p) :: map (fun i => SIdx (Z.of_nat i)) (snd p)).
Proof. intros h. unfold split_part, with_positions. rewrite split_positions by exact h. rewrite indices_decimal. reflexivity. Qed.
Lemma with_positions_nodot p : ~ In "." (fst p) -> ~ In "." (with_positions p).
Proof.
  intros h hin. unfold with_positions in hin. apply in_app_iff in hin. destruct hin as [hin|hin]; [auto|].
  apply in_flat_map in hin. destruct hin as (i & _ & hin). destruct hin as [e|hin]; [discriminate|].
  apply in_app_iff in hin. destruct hin as [hin|[e|[]]]; [|discriminate]. revert hin. apply decimal_no. vm_compute. lia.
Qed.
Lemma split_parts_positions ps : (forall p, In p ps -> ~ In "[" (fst p)) ->
  split_parts (map with_positions ps) = Ok (flat_map (fun p => SName (fst p) :: map (fun i => SIdx (Z.of_nat i)) (snd p)) ps).
Proof.
  induction ps as [|p ps IH]; intros h; [reflexivity|]. simpl.
  rewrite split_part_positions by (apply h; left; reflexivity). rewrite IH by (intros q hq; apply h; right; exact hq). reflexivity.
Qed.
Lemma split_cname_positions p ps : fst p <> [] -> (forall q, In q (p :: ps) -> ~ In "." (fst q) /\ ~ In "[" (fst q)) ->
  split_cname (dotted (map with_positions (p :: ps))) = Ok (Parts (flat_map (fun q => SName (fst q) :: map (fun i => SIdx (Z.of_nat i)) (snd q)) (p :: ps))).
Proof.
  intros hne h. unfold split_cname, dotted. rewrite split_join.
  - rewrite split_parts_positions by (intros q hq; apply (h q hq)). simpl.
    destruct (fst p) as [|c s]; [congruence|]. reflexivity.
  - discriminate.
  - intros w hw. apply in_map_iff in hw. destruct hw as (q & <- & hq). apply with_positions_nodot. apply (h q hq).
Qed.
Lemma split_cname_dotted n ns : (forall m, In m (n :: ns) -> Component m) ->
  split_cname (dotted (n :: ns)) = Ok (Parts (map SName (n :: ns))).
Proof.
  intros h.
  assert (e : dotted (n :: ns) = dotted (map with_positions ((n, []) :: map (fun m => (m, [])) ns))).
  { unfold dotted. f_equal. cbn [map]. f_equal.
    - unfold with_positions. simpl. symmetry. apply app_nil_r.
    - rewrite map_map. symmetry. transitivity (map (fun m : str => m) ns); [|apply map_id]. apply map_ext. intros m. unfold with_positions. simpl. apply app_nil_r. }
  rewrite e. rewrite split_cname_positions.
  - do 2 f_equal. simpl. f_equal. clear. induction ns as [|m ns IH]; [reflexivity|]. simpl. f_equal. exact IH.
  - apply (h n). left. reflexivity.
  - intros q [<-|hq]; [split; apply (h n); left; reflexivity|]. apply in_map_iff in hq. destruct hq as (m & <- & hm).
    split; apply (h m); right; exact hm.
Qed.
Lemma dotted_has_dot n m ns : mem "." (dotted (n :: m :: ns)) = true.
Proof. apply mem_In. unfold dotted. rewrite ljoin_cons by discriminate. apply in_app_iff. right. left. reflexivity. Qed.
Lemma dotted_nonempty n m ns : dotted (n :: m :: ns) <> [].
Proof. intro e. assert (H := dotted_has_dot n m ns). rewrite e in H. discriminate. Qed.

(** * following names *)
Lemma ValueAt_det o ns v : ValueAt o ns v -> forall w, ValueAt o ns w -> w = v.
Proof.
  intros H. induction H as [v|free l n c ns v e H IH]; intros w Hw.
  - inversion Hw. reflexivity.
  - inversion Hw; subst. assert (c0 = c) by congruence. subst. apply IH. assumption.
Qed.

Lemma ValueAt_cons o n ns v : ValueAt o (n :: ns) v -> exists free l c, o = TObj free l /\ dget n l = Some c /\ ValueAt c ns v.
Proof. intros H. inversion H; subst. repeat eexists; eassumption. Qed.
Lemma ValueAt_nil o v : ValueAt o [] v -> o = v.
Proof. intros H. inversion H. reflexivity. Qed.

Section Follow.
  Variable reserved : str -> bool.
  Lemma follow_sound ns : (forall n, In n ns -> reserved n = false) -> forall o v, follow_all reserved o (map SName ns) = Ok v ->
    v <> TNone -> ValueAt o ns v.
  Proof.
    induction ns as [|n ns IH]; intros hr o v; simpl.
    - intros H _. injection H as ->. constructor.
    - rewrite (hr n) by (left; reflexivity). destruct o as [|s|free l|l|]; try discriminate.
      destruct (dget n l) as [c|] eqn:e; simpl.
      + intros H hv. econstructor; [exact e|]. apply IH; [intros m hm; apply hr; right; exact hm| |exact hv].
        destruct c; try exact H. congruence.
      + destruct (free n); simpl; [|discriminate]. intros H hv. congruence.
  Qed.
  Lemma follow_complete ns : (forall n, In n ns -> reserved n = false) -> forall o v, ValueAt o ns v -> v <> TNone -> follow_all reserved o (map SName ns) = Ok v.
  Proof.
    induction ns as [|n ns IH]; intros hr o v H hv; [apply ValueAt_nil in H; subst; reflexivity|].
    destruct (ValueAt_cons _ _ _ _ H) as (free & l & c & -> & e & hc).
    simpl. rewrite (hr n) by (left; reflexivity). rewrite e. simpl.
    assert (hf : follow_all reserved c (map SName ns) = Ok v) by (apply IH; [intros m hm; apply hr; right; exact hm|assumption|exact hv]).
    destruct c; try exact hf. exfalso. destruct ns; [apply ValueAt_nil in hc; congruence|].
    apply ValueAt_cons in hc. destruct hc as (? & ? & ? & e2 & _). discriminate.
  Qed.

  (** putting a value *)
  Lemma put_all_two o n m ps v : put_all reserved o (SName n :: m :: ps) v =
    (do c <- follow1 reserved o (SName n);
     match c with TNone => Ok o | _ => do c' <- put_all reserved c (m :: ps) v;
       Ok (match o with TObj free l => if reserved n then o else TObj free (dset n c' l) | _ => o end) end).
  Proof. simpl. reflexivity. Qed.

  Lemma put_value pre k : (forall n, In n (pre ++ [k]) -> reserved n = false) -> forall o free l v,
    ValueAt o pre (TObj free l) -> dmem k l || free k = true ->
    exists o', put_all reserved o (map SName (pre ++ [k])) v = Ok o' /\ ValueAt o' (pre ++ [k]) v /\
      forall qs w, ~ Comparable (pre ++ [k]) qs -> (ValueAt o' qs w <-> ValueAt o qs w).
  Proof.
    induction pre as [|n pre IH]; intros hr o free l v H hk.
    - inversion H; subst. simpl. rewrite hk. eexists. split; [reflexivity|]. split; [econstructor; [apply dget_dset_same|constructor]|].
      intros qs w hc. destruct qs as [|q qs]; [exfalso; apply hc; right; exists [k]; reflexivity|].
      assert (hq : q <> k) by (intros ->; apply hc; left; exists qs; reflexivity).
      split; intros hv; destruct (ValueAt_cons _ _ _ _ hv) as (f2 & l2 & c2 & e2 & e3 & h3); injection e2 as <- <-; econstructor; try exact h3.
      + rewrite dget_dset_other in e3 by congruence. exact e3.
      + rewrite dget_dset_other by congruence. exact e3.
    - destruct (ValueAt_cons _ _ _ _ H) as (free1 & l1 & c & -> & H3 & H5).
      destruct (IH ltac:(intros x hx; apply hr; right; exact hx) _ _ _ v H5 hk) as (c' & e & hva & hother).
      assert (hm : exists s ps, map SName (pre ++ [k]) = SName s :: ps) by (destruct pre; simpl; eexists; eexists; reflexivity).
      destruct hm as (s & ps & em).
      change (map SName ((n :: pre) ++ [k])) with (SName n :: map SName (pre ++ [k])). rewrite em in *. rewrite put_all_two.
      cbn [follow1]. rewrite (hr n) by (left; reflexivity). rewrite H3. cbn [rbind].
      assert (hc : c <> TNone) by (intros ->; inversion H5).
      exists (TObj free1 (dset n c' l1)). split; [destruct c; try congruence; rewrite e; reflexivity|].
      split; [econstructor; [apply dget_dset_same|exact hva]|].
      intros qs w hcmp. destruct qs as [|q qs]; [exfalso; apply hcmp; right; exists ((n :: pre) ++ [k]); reflexivity|].
      destruct (eq_dec q n) as [->|ne].
      + assert (h2 : ~ Comparable (pre ++ [k]) qs).
        { intros [[r ->]|[r er]]; apply hcmp; [left; exists r; reflexivity|right; exists r; simpl; f_equal; exact er]. }
        specialize (hother qs w h2). split; intros hv; destruct (ValueAt_cons _ _ _ _ hv) as (f2 & l2 & c2 & e2 & e3 & h3); injection e2 as <- <-.
        * rewrite dget_dset_same in e3. injection e3 as <-. econstructor; [exact H3|]. apply hother. exact h3.
        * assert (c2 = c) by congruence. subst c2. econstructor; [apply dget_dset_same|]. apply hother. exact h3.
      + split; intros hv; destruct (ValueAt_cons _ _ _ _ hv) as (f2 & l2 & c2 & e2 & e3 & h3); injection e2 as <- <-; econstructor; try exact h3.
        * rewrite dget_dset_other in e3 by congruence. exact e3.
        * rewrite dget_dset_other by congruence. exact e3.
  Qed.

  (** what a successful assignment means: the object holding the last name was reached, or a None was met on the way *)
  Lemma put_sound pre k : (forall n, In n (pre ++ [k]) -> reserved n = false) -> forall o v o',
    put_all reserved o (map SName (pre ++ [k])) v = Ok o' ->
    (exists free l, ValueAt o pre (TObj free l) /\ dmem k l || free k = true) \/
    (o' = o /\ exists p1 n p2 free l, pre = p1 ++ n :: p2 /\ ValueAt o p1 (TObj free l) /\ (dget n l = Some TNone \/ (dget n l = None /\ free n = true))).
  Proof.
    induction pre as [|n pre IH]; intros hr o v o' H.
    - simpl in H. destruct o as [| |free l|l|]; try discriminate.
      destruct (dmem k l || free k) eqn:e; [|discriminate]. left. exists free, l. split; [constructor|exact e].
    - assert (hm : exists s ps, map SName (pre ++ [k]) = SName s :: ps) by (destruct pre; simpl; eexists; eexists; reflexivity).
      destruct hm as (s & ps & em).
      change (map SName ((n :: pre) ++ [k])) with (SName n :: map SName (pre ++ [k])) in H. rewrite em in *. rewrite put_all_two in H.
      cbn [follow1] in H. rewrite (hr n) in H by (left; reflexivity).
      destruct o as [| |free l|l|]; try discriminate.
      assert (hr2 : forall x, In x (pre ++ [k]) -> reserved x = false) by (intros x hx; apply hr; right; exact hx).
      destruct (dget n l) as [c|] eqn:e.
      + destruct (match c with TNone => true | _ => false end) eqn:ec.
        * destruct c; try discriminate. cbn [rbind] in H. injection H as <-. right. split; [reflexivity|].
          exists [], n, pre, free, l. split; [reflexivity|]. split; [constructor|left; exact e].
        * cbn [rbind] in H.
          assert (H' : (do c' <- put_all reserved c (SName s :: ps) v; Ok (TObj free (dset n c' l))) = Ok o') by (destruct c; try discriminate; exact H).
          destruct (put_all reserved c (SName s :: ps) v) as [c'|] eqn:e2; [|discriminate]. cbn [rbind] in H'.
          destruct (IH hr2 _ _ _ e2) as [(f & l2 & hva & hk)|(-> & p1 & m & p2 & f & l2 & ep & hva & hn)].
          -- left. exists f, l2. split; [econstructor; eassumption|exact hk].
          -- right. split.
             { injection H' as <-. f_equal. clear -e. revert e. induction l as [|[a b] l IH]; simpl; [discriminate|].
               destruct (eq_dec n a) as [->|ne]; intros e'; [congruence|]. f_equal. apply IH. exact e'. }
             exists (n :: p1), m, p2, f, l2. split; [rewrite ep; reflexivity|]. split; [econstructor; eassumption|exact hn].
      + destruct (free n) eqn:ef; cbn [rbind] in H; [|discriminate]. injection H as <-. right. split; [reflexivity|].
        exists [], n, pre, free, l. split; [reflexivity|]. split; [constructor|right; split; assumption].
  Qed.
End Follow.

(** * search *)
Lemma tv_rect' (P : tv -> Prop) : P TNone -> (forall s, P (TText s)) -> (forall free l, Forall (fun kv => P (snd kv)) l -> P (TObj free l)) ->
  (forall l, Forall P l -> P (TArr l)) -> P TOther -> forall t, P t.
Proof.
  intros h1 h2 h3 h4 h5. fix IH 1. intros [|s|free l|l|]; [exact h1|apply h2| | |exact h5].
  - apply h3. induction l as [|[k v] l IHl]; constructor; [apply IH|exact IHl].
  - apply h4. induction l as [|v l IHl]; constructor; [apply IH|exact IHl].
Qed.
Lemma is_prefixb_spec {A} (E : EqDec A) (p : list A) : forall l, is_prefixb p l = true <-> exists r, l = p ++ r.
Proof.
  induction p as [|x p IH]; intros l; simpl; [split; [intros _; exists l; reflexivity|reflexivity]|].
  destruct l as [|y l]; [split; [discriminate|intros (r & e); discriminate]|].
  rewrite andb_true_iff, (beq_true E), IH. split.
  - intros (-> & r & ->). exists r. reflexivity.
  - intros (r & e). injection e as -> ->. split; [reflexivity|exists r; reflexivity].
Qed.

Definition elems_of (cn cur_cn : list str) (path : list pseg) : nat -> list tv -> list (tv * list pseg) :=
  fix elems (i : nat) (l : list tv) := match l with [] => [] | v :: l' => find_named cn v cur_cn (path ++ [StepPos i]) ++ elems (S i) l' end.
Lemma elems_In cn cur_cn path x l : forall i, In x (elems_of cn cur_cn path i l) <-> exists j c, nth_error l j = Some c /\ In x (find_named cn c cur_cn (path ++ [StepPos (i + j)])).
Proof.
  induction l as [|v l IH]; intros i; simpl.
  - split; [intros []|]. intros ([|j] & c & e & _); discriminate.
  - rewrite in_app_iff, IH. split.
    + intros [h|(j & c & e & h)]; [exists 0, v; rewrite Nat.add_0_r; split; [reflexivity|exact h]|].
      exists (S j), c. split; [exact e|]. replace (i + S j) with (S i + j) by lia. exact h.
    + intros ([|j] & c & e & h); simpl in e; [injection e as <-; left; rewrite Nat.add_0_r in h; exact h|].
      right. exists j, c. split; [exact e|]. replace (S i + j) with (i + S j) by lia. exact h.
Qed.

Lemma Named_nonempty t ns p d : Named t ns p d -> ns <> [].
Proof. intros H. induction H; try discriminate. exact IHNamed. Qed.

Lemma simple_name_spec l n : SimpleName l n <-> n = simple_name l.
Proof.
  unfold simple_name. change name_field with (chars "name"). split.
  - intros [m e ne nc|pre m e nc|h].
    + rewrite e. destruct m as [|c s]; [congruence|]. symmetry. apply last_split_free. exact nc.
    + rewrite e. destruct (pre ++ ":" :: m) as [|c s] eqn:es; [destruct pre; discriminate|]. rewrite <- es, last_split_app. symmetry. apply last_split_free. exact nc.
    + destruct (dget (chars "name") l) as [[|[|c s]| | |]|] eqn:e; try reflexivity. specialize (h _ eq_refl). discriminate.
  - intros ->. destruct (dget (chars "name") l) as [[|s| | |]|] eqn:e; try (apply SN_none; intros s' e'; congruence).
    destruct s as [|c s]; [apply SN_none; intros s' e'; congruence|].
    destruct (in_dec ascii_dec ":" (c :: s)) as [i|i]; [|rewrite last_split_free by exact i; apply SN_plain; [exact e|discriminate|exact i]].
    assert (L : exists pre, c :: s = pre ++ ":" :: last (split_char ":" (c :: s)) []).
    { clear e. induction (c :: s) as [|x w IH]; [destruct i|]. destruct (in_dec ascii_dec ":" w) as [iw|nw].
      - destruct (IH iw) as (pre & ep). exists (x :: pre). cbn [app]. f_equal. rewrite ep at 1. do 2 f_equal. rewrite ep at 2.
        change (x :: pre ++ ":" :: last (split_char ":" w) []) with ((x :: pre) ++ ":" :: last (split_char ":" w) []). rewrite last_split_app.
        symmetry. apply last_split_free. apply last_split_no.
      - destruct i as [->|i]; [|contradiction]. exists []. cbn [app]. f_equal. change (":" :: w) with ([] ++ ":" :: w). rewrite last_split_app. symmetry. apply last_split_free. exact nw. }
    destruct L as (pre & ep). apply (SN_prefixed l pre); [rewrite e; do 2 f_equal; exact ep|apply last_split_no].
Qed.
Lemma simple_name_self l : SimpleName l (simple_name l).
Proof. apply simple_name_spec. reflexivity. Qed.

Lemma find_named_In cur : forall cur_cn ns path d q, cur_cn ++ ns <> [] ->
  (In (d, q) (find_named (cur_cn ++ ns) cur cur_cn path) <-> exists p, q = path ++ p /\ Named cur ns p d).
Proof.
  induction cur as [|s|free l IH|l IH|] using tv_rect'; intros cur_cn ns path d q hne.
  all: assert (hnil : forall X : list (tv * list pseg), (match cur_cn ++ ns with [] => X | _ => [] end) = []) by (intros; destruct (cur_cn ++ ns); [congruence|reflexivity]).
  all: cbn [find_named]; rewrite hnil; cbn [app].
  - split; [intros []|]. intros (p & _ & h). inversion h.
  - split; [intros []|]. intros (p & _ & h). inversion h.
  - set (sn := simple_name l). destruct (is_prefixb (cur_cn ++ [sn]) (cur_cn ++ ns)) eqn:ep.
    + apply is_prefixb_spec in ep. destruct ep as (r & er). rewrite <- app_assoc in er. apply app_inv_head in er. simpl in er.
      subst ns. rewrite in_app_iff, in_flat_map.
      assert (hb : beq (cur_cn ++ [sn]) (cur_cn ++ sn :: r) = match r with [] => true | _ => false end).
      { destruct r; [apply beq_refl|]. apply beq_false. intro e. apply app_inv_head in e. discriminate. }
      rewrite hb. split.
      * intros [h|((k & c) & hin & h)].
        -- destruct r; [|destruct h]. destruct h as [e|[]]. injection e as <- <-. exists []. split; [rewrite app_nil_r; reflexivity|apply Named_here; apply simple_name_self].
        -- simpl in h. assert (h' : In (d, q) (find_named (cur_cn ++ sn :: r) c (cur_cn ++ [sn]) (path ++ [StepKey k]))) by (destruct c; try destruct h; assumption).
           replace (cur_cn ++ sn :: r) with ((cur_cn ++ [sn]) ++ r) in h' by (rewrite <- app_assoc; reflexivity).
           rewrite Forall_forall in IH. specialize (IH _ hin). simpl in IH. rewrite IH in h' by (destruct cur_cn; discriminate).
           destruct h' as (p & -> & hN). exists (StepKey k :: p). split; [rewrite <- app_assoc; reflexivity|]. eapply Named_key; [apply simple_name_self|eassumption|eassumption].
      * intros (p & -> & hN). inversion hN; subst; match goal with hs : SimpleName _ _ |- _ => clear hs end.
        -- left. left. rewrite app_nil_r. reflexivity.
        -- right. exists (k, c). split; [assumption|]. simpl.
           assert (h' : In (d, path ++ StepKey k :: p0) (find_named (cur_cn ++ sn :: r) c (cur_cn ++ [sn]) (path ++ [StepKey k]))).
           { replace (cur_cn ++ sn :: r) with ((cur_cn ++ [sn]) ++ r) by (rewrite <- app_assoc; reflexivity).
             rewrite Forall_forall in IH. assert (hin : In (k, c) l) by assumption. specialize (IH _ hin). simpl in IH.
             apply IH; [destruct cur_cn; discriminate|]. exists p0. split; [rewrite <- app_assoc; reflexivity|assumption]. }
           match goal with hc : Named c _ _ _ |- _ => destruct c; try (inversion hc; fail) end; exact h'.
    + split; [intros []|]. intros (p & _ & h). exfalso. assert (ht : is_prefixb (cur_cn ++ [sn]) (cur_cn ++ ns) = true); [|congruence].
      apply is_prefixb_spec. inversion h as [? ? n hs|? ? n ? ? ns0 ? ? hs|]; subst; apply simple_name_spec in hs; subst n; [exists []|exists ns0]; rewrite <- ?app_assoc; reflexivity || (rewrite app_nil_r; reflexivity).
  - change (In (d, q) (elems_of (cur_cn ++ ns) cur_cn path 0 l) <-> exists p, q = path ++ p /\ Named (TArr l) ns p d).
    rewrite elems_In. rewrite Forall_forall in IH. split.
    + intros (j & c & e & h). simpl in h. apply (IH c) in h; [|eapply nth_error_In; exact e|exact hne].
      destruct h as (p & -> & hN). exists (StepPos j :: p). split; [rewrite <- app_assoc; reflexivity|]. eapply Named_elem; eassumption.
    + intros (p & -> & hN). inversion hN; subst. exists i, c. split; [assumption|]. simpl.
      apply (IH c); [eapply nth_error_In; eassumption|exact hne|]. exists p0. split; [rewrite <- app_assoc; reflexivity|assumption].
  - split; [intros []|]. intros (p & _ & h). inversion h.
Qed.
