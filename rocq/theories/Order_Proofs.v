From Coq Require Import Permutation Relations.
From Verif Require Import Order_Model Order_Spec.

Section MroProofs.
  Context {A : Type} {EA : EqDec A}.

  Lemma Subseq_refl (l : list A) : Subseq l l.
  Proof. induction l; constructor; assumption. Qed.
  Lemma Subseq_In (s l : list A) x : Subseq s l -> In x s -> In x l.
  Proof. induction 1; simpl; intuition. Qed.
  Lemma Subseq_app_skip (p s l : list A) : Subseq s l -> Subseq s (p ++ l).
  Proof. intros h. induction p; simpl; [exact h|constructor; assumption]. Qed.

  Lemma c3_candidate_Some (ne seqs : list (list A)) c : c3_candidate ne seqs = Some c ->
    (exists pre t post, seqs = pre ++ (c :: t) :: post /\
       (forall c' t', In (c' :: t') pre -> exists s, In s ne /\ In c' (tl s))) /\
    (forall s, In s ne -> ~ In c (tl s)).
  Proof.
    induction seqs as [|s seqs IH]; simpl; [discriminate|]. destruct s as [|x t].
    - intros h. destruct (IH h) as ((pre & t & post & -> & hp) & hn). split; [|exact hn].
      exists ([] :: pre), t, post. split; [reflexivity|]. intros c' t' [e|i]; [discriminate|]. eauto.
    - destruct (in_some_tail ne x) eqn:e; intros h.
      + destruct (IH h) as ((pre & t' & post & -> & hp) & hn). split; [|exact hn].
        exists ((x :: t) :: pre), t', post. split; [reflexivity|]. intros c' t0 [e'|i]; [|eauto].
        injection e' as <- <-. unfold in_some_tail in e. apply existsb_exists in e. destruct e as (s & i & m).
        exists s. split; [exact i|]. apply mem_In in m. exact m.
      + injection h as <-. split.
        * exists [], t, seqs. split; [reflexivity|]. simpl. tauto.
        * intros s i hm. unfold in_some_tail in e. rewrite <- not_true_iff_false in e. apply e.
          apply existsb_exists. exists s. split; [exact i|]. apply mem_In. exact hm.
  Qed.

  Lemma c3_candidate_None (ne seqs : list (list A)) : c3_candidate ne seqs = None ->
    forall c t, In (c :: t) seqs -> exists s, In s ne /\ In c (tl s).
  Proof.
    induction seqs as [|s seqs IH]; simpl; [tauto|]. destruct s as [|x t].
    - intros h c t' [e|i]; [discriminate|]. eauto.
    - destruct (in_some_tail ne x) eqn:e; [|discriminate]. intros h c t' [e'|i]; [|eauto].
      injection e' as <- <-. unfold in_some_tail in e. apply existsb_exists in e. destruct e as (s & i & m).
      exists s. split; [exact i|]. apply mem_In in m. exact m.
  Qed.

  Lemma concat_filter_nonempty (seqs : list (list A)) : concat (filter nonempty seqs) = concat seqs.
  Proof. induction seqs as [|[|x t] seqs IH]; simpl; [reflexivity|exact IH|]. rewrite IH. reflexivity. Qed.

  Lemma c3_remove_length c (s : list A) : length (c3_remove c s) <= length s.
  Proof. destruct s as [|x t]; simpl; [lia|]. destruct (eq_dec x c); simpl; lia. Qed.

  Lemma length_concat_remove_le c (seqs : list (list A)) : length (concat (map (c3_remove c) seqs)) <= length (concat seqs).
  Proof. induction seqs as [|s seqs IH]; simpl; [lia|]. rewrite !app_length. pose proof (c3_remove_length c s). lia. Qed.

  Lemma length_concat_remove_lt c (t : list A) pre post :
    length (concat (map (c3_remove c) (pre ++ (c :: t) :: post))) < length (concat (pre ++ (c :: t) :: post)).
  Proof.
    rewrite map_app. cbn [map]. rewrite !concat_app. cbn [concat]. rewrite !app_length.
    pose proof (length_concat_remove_le c pre). pose proof (length_concat_remove_le c post).
    simpl (c3_remove c (c :: t)). destruct (eq_dec c c); [|congruence]. simpl. lia.
  Qed.

  Lemma c3_loop_fuel : forall fuel seqs out, length (concat seqs) < fuel -> c3_loop fuel seqs out <> Err OutOfFuel.
  Proof.
    induction fuel as [|f IH]; intros seqs out h; [lia|]. cbn [c3_loop].
    rewrite <- concat_filter_nonempty in h. destruct (filter nonempty seqs) as [|s ne] eqn:e; [discriminate|].
    destruct (c3_candidate (s :: ne) (s :: ne)) as [c|] eqn:ec; [|discriminate].
    apply IH. destruct (c3_candidate_Some _ _ _ ec) as ((pre & t & post & eq & _) & _). rewrite eq in *.
    pose proof (length_concat_remove_lt c t pre post). lia.
  Qed.

  Lemma Forall2_remove c (ne : list (list A)) :
    Forall2 (fun s s' => s = c :: s' \/ (s = s' /\ forall t0, s <> c :: t0)) ne (map (c3_remove c) ne).
  Proof.
    induction ne as [|s ne IH]; simpl; constructor; [|exact IH]. destruct s as [|x t]; simpl.
    - right. split; [reflexivity|discriminate].
    - destruct (eq_dec x c) as [->|n]; [left; reflexivity|right; split; [reflexivity|]]. intros t0 e. congruence.
  Qed.

  Lemma filter_split (seqs : list (list A)) c t : forall pre post,
    filter nonempty seqs = pre ++ (c :: t) :: post ->
    exists pre' post', seqs = pre' ++ (c :: t) :: post' /\ filter nonempty pre' = pre.
  Proof.
    induction seqs as [|s seqs IH]; intros pre post e; [destruct pre; discriminate|].
    destruct s as [|x u]; simpl in e.
    - destruct (IH _ _ e) as (p' & q' & -> & h). exists ([] :: p'), q'. split; [reflexivity|exact h].
    - destruct pre as [|p pre]; simpl in e; injection e as e1 e2.
      + subst. exists [], seqs. split; reflexivity.
      + destruct (IH _ _ e2) as (p' & q' & -> & h). exists ((x :: u) :: p'), q'. split; [reflexivity|].
        simpl. rewrite h, <- e1. reflexivity.
  Qed.

  Lemma filter_remove c (seqs : list (list A)) :
    filter nonempty (map (c3_remove c) (filter nonempty seqs)) = filter nonempty (map (c3_remove c) seqs).
  Proof. induction seqs as [|[|x u] seqs IH]; simpl; [reflexivity|exact IH|].
         destruct (eq_dec x c); simpl; rewrite IH; reflexivity. Qed.

  Lemma c3_loop_filter f : forall s1 s2 out, filter nonempty s1 = filter nonempty s2 -> c3_loop f s1 out = c3_loop f s2 out.
  Proof. intros s1 s2 out e. destruct f; simpl; [reflexivity|]. rewrite e. reflexivity. Qed.

  (** one turn of the loop, on the unfiltered sequences *)
  Lemma c3_loop_step f seqs out :
    c3_loop (S f) seqs out =
    match filter nonempty seqs with
    | [] => Ok out
    | s0 :: ne0 => match c3_candidate (s0 :: ne0) (s0 :: ne0) with None => Err TypeError
            | Some c => c3_loop f (map (c3_remove c) seqs) (out ++ [c]) end
    end.
  Proof.
    cbn [c3_loop]. destruct (filter nonempty seqs) as [|s ne] eqn:e; [reflexivity|].
    destruct (c3_candidate (s :: ne) (s :: ne)) as [c|]; [|reflexivity].
    apply c3_loop_filter. rewrite <- e. apply filter_remove.
  Qed.

  Lemma nonempty_In (seqs : list (list A)) x t : In (x :: t) (filter nonempty seqs) <-> In (x :: t) seqs.
  Proof. rewrite filter_In. simpl. tauto. Qed.

  Lemma in_tail_filter (seqs : list (list A)) c :
    (exists s, In s (filter nonempty seqs) /\ In c (tl s)) <-> (exists s, In s seqs /\ In c (tl s)).
  Proof. split; intros (s & i & h); exists s; [apply filter_In in i; tauto|]. split; [|exact h].
         apply filter_In. split; [exact i|]. destruct s; [destruct h|reflexivity]. Qed.

  Lemma c3_loop_C3Merge : forall fuel seqs out l, c3_loop fuel seqs out = Ok l ->
    exists l', l = out ++ l' /\ C3Merge seqs l'.
  Proof.
    induction fuel as [|f IH]; intros seqs out l; [discriminate|]. rewrite c3_loop_step.
    destruct (filter nonempty seqs) as [|s ne] eqn:e.
    - injection 1 as <-. exists []. rewrite app_nil_r. split; [reflexivity|]. constructor. intros s i.
      destruct s as [|x t]; [reflexivity|]. apply nonempty_In in i. rewrite e in i. destruct i.
    - destruct (c3_candidate (s :: ne) (s :: ne)) as [c|] eqn:ec; [|discriminate]. intros h.
      apply IH in h. destruct h as (l' & -> & hm). exists (c :: l'). rewrite <- app_assoc. split; [reflexivity|].
      destruct (c3_candidate_Some _ _ _ ec) as ((pre & t & post & eq & hp) & hn). rewrite <- e in *.
      destruct (filter_split _ _ _ _ _ eq) as (pre' & post' & e' & ep).
      apply (@C3_take A seqs pre' c t post' (map (c3_remove c) seqs)).
      + exact e'.
      + intros x i hx. assert (k : exists s, In s (filter nonempty seqs) /\ In c (tl s)) by (apply in_tail_filter; eauto).
        destruct k as (s0 & i0 & h0). exact (hn s0 i0 h0).
      + intros c' t' i. apply in_tail_filter. apply (hp c' t'). rewrite <- ep. apply nonempty_In. exact i.
      + apply Forall2_remove.
      + exact hm.
  Qed.

  Lemma c3_loop_Err : forall fuel seqs out e, c3_loop fuel seqs out = Err e -> e = OutOfFuel \/ e = TypeError.
  Proof.
    induction fuel as [|f IH]; intros seqs out e; [injection 1; auto|]. rewrite c3_loop_step.
    destruct (filter nonempty seqs) as [|s ne]; [discriminate|].
    destruct (c3_candidate (s :: ne) (s :: ne)) as [c|]; [apply IH|]. injection 1; auto.
  Qed.

  Lemma C3Merge_compatible (seqs : list (list A)) l : C3Merge seqs l ->
    Compatible seqs l /\ (forall x, In x l <-> exists s, In s seqs /\ In x s).
  Proof.
    induction 1 as [seqs hd|seqs pre c t post seqs' l e nt hp f2 hm [[nd ss] hin]].
    - split; [split; [constructor|]|].
      + intros s i. rewrite (hd s i). constructor.
      + intros x. simpl. split; [tauto|]. intros (s & i & h). rewrite (hd s i) in h. destruct h.
    - assert (gone : forall s', In s' seqs' -> ~ In c s').
      { intros s' i hc. clear -f2 nt i hc. induction f2 as [|a b la lb hab f2 IH]; [destruct i|].
        destruct i as [->|i].
        - destruct hab as [->|[-> no]].
          + apply (nt (c :: s') (or_introl eq_refl)). exact hc.
          + destruct s' as [|y u]; [destruct hc|]. destruct hc as [->|hc]; [apply (no u); reflexivity|].
            apply (nt (y :: u) (or_introl eq_refl)). exact hc.
        - apply IH; [|exact i]. intros s is. apply nt. right. exact is. }
      assert (in12 : forall s, In s seqs -> exists s', In s' seqs' /\ (s = c :: s' \/ s = s')).
      { clear -f2. induction f2 as [|a b la lb hab f2 IH]; simpl; [tauto|]. intros s [->|i].
        - exists b. split; [auto|]. destruct hab as [h|[h _]]; auto.
        - destruct (IH s i) as (s' & i' & h). eauto. }
      assert (in21 : forall s', In s' seqs' -> exists s, In s seqs /\ (s = c :: s' \/ s = s')).
      { clear -f2. induction f2 as [|a b la lb hab f2 IH]; simpl; [tauto|]. intros s [->|i].
        - exists a. split; [auto|]. destruct hab as [h|[h _]]; auto.
        - destruct (IH s i) as (s' & i' & h). eauto. }
      split; [split|].
      + constructor; [|exact nd]. intros hc. apply hin in hc. destruct hc as (s' & i & h). exact (gone s' i h).
      + intros s i. destruct (in12 s i) as (s' & i' & [->| ->]); [apply SS_take|apply SS_skip]; apply ss; exact i'.
      + intros x. simpl. rewrite hin. split.
        * intros [<-|(s' & i & h)]; [exists (c :: t); split; [rewrite e, in_app_iff; simpl; auto|left; reflexivity]|].
          destruct (in21 s' i) as (s & is & [->| ->]); eexists; split; try eassumption. right. exact h.
        * intros (s & i & h). destruct (in12 s i) as (s' & i' & [->| ->]); [|eauto].
          destruct h as [->|h]; [auto|eauto].
  Qed.

  (** if some order is compatible, one of the heads is acceptable *)
  Lemma Subseq_cons_inv x (s l : list A) : Subseq (x :: s) l -> exists p q, l = p ++ x :: q /\ Subseq s q.
  Proof.
    intros h. remember (x :: s) as xs eqn:e. revert x s e. induction h as [l|y s' l h IH|y s' l h IH]; intros x s e.
    - discriminate. - injection e as -> ->. exists [], l. split; [reflexivity|exact h].
    - destruct (IH x s e) as (p & q & -> & hq). exists (y :: p), q. split; [reflexivity|exact hq].
  Qed.
  Lemma Subseq_tl (s l : list A) x : Subseq (x :: s) l -> Subseq s l.
  Proof. intros h. destruct (Subseq_cons_inv _ _ _ h) as (p & q & -> & hq). apply Subseq_app_skip, SS_skip, hq. Qed.

  (** strike an acceptable head from a compatible order *)
  Lemma Subseq_drop c (l : list A) : forall s, NoDup l -> Subseq s l -> ~ In c s ->
    Subseq s (filter (fun x => negb (beq x c)) l).
  Proof.
    induction l as [|y l IH]; intros s nd h n; simpl.
    - inversion h; subst; constructor.
    - inversion nd as [|? ? ni nd']; subst. inversion h as [|x s' l' h'|x s' l' h']; subst.
      + constructor.
      + destruct (beq_spec EA y c) as [->|ny]; [destruct n; left; reflexivity|]. simpl. apply SS_take.
        apply IH; [exact nd'|exact h'|]. intros i. apply n. right. exact i.
      + destruct (beq y c); simpl; [apply IH; assumption|]. apply SS_skip. apply IH; assumption.
  Qed.

  Lemma compatible_not_stuck (seqs : list (list A)) l : Compatible seqs l ->
    (exists c t, In (c :: t) seqs) ->
    exists c t, In (c :: t) seqs /\ forall s, In s seqs -> ~ In c (tl s).
  Proof.
    intros [nd ss] (c0 & t0 & i0).
    (* the first element of l that heads a sequence *)
    assert (g : forall l1 l2, l = l1 ++ l2 -> (forall c t, In (c :: t) seqs -> ~ In c l1) ->
              exists c t, In (c :: t) seqs /\ forall s, In s seqs -> ~ In c (tl s)).
    { intros l1 l2. revert l1. induction l2 as [|x l2 IH]; intros l1 e nh.
      - rewrite app_nil_r in e. subst l1. destruct (nh c0 t0 i0). apply (Subseq_In _ _ c0 (ss _ i0)). left. reflexivity.
      - destruct (existsb (fun s => match s with y :: _ => beq y x | [] => false end) seqs) eqn:ex.
        + apply existsb_exists in ex. destruct ex as ([|y t] & i & h); [discriminate|]. apply beq_true in h. subst y.
          exists x, t. split; [exact i|]. intros s is hx. destruct s as [|z u]; [destruct hx|]. simpl in hx.
          (* z heads a sequence, so it is not in l1; but z precedes x in l *)
          assert (hz := ss _ is). destruct (Subseq_cons_inv _ _ _ hz) as (p & q & el & hq).
          assert (xq : In x q) by (eapply Subseq_In; eassumption).
          assert (zl : ~ In z l1) by (eapply nh; exact is).
          (* l = l1 ++ x :: l2 = p ++ z :: q, with x in q: z is in l1 *)
          rewrite e in el, nd. clear -el nd xq zl. revert p el. induction l1 as [|a l1 IHl]; intros p el.
          * simpl in *. destruct p as [|b p]; simpl in el; injection el as e1 e2.
            -- subst. inversion nd; subst. tauto.
            -- subst. inversion nd as [|? ? ni _]; subst. apply ni. rewrite in_app_iff. simpl. tauto.
          * destruct p as [|b p]; simpl in el; injection el as e1 e2.
            -- subst. apply zl. left. reflexivity.
            -- subst. simpl in nd. inversion nd; subst. eapply IHl; [assumption|simpl in zl; tauto|eassumption].
        + apply (IH (l1 ++ [x])); [rewrite e, <- app_assoc; reflexivity|]. intros c t i hc. apply in_app_iff in hc.
          destruct hc as [hc|[->|[]]]; [exact (nh c t i hc)|]. rewrite <- not_true_iff_false in ex. apply ex.
          apply existsb_exists. exists (c :: t). split; [exact i|]. apply beq_refl. }
    apply (g [] l); [reflexivity|]. simpl. tauto.
  Qed.

  Lemma c3_loop_complete : forall fuel seqs out l, Compatible seqs l -> c3_loop fuel seqs out <> Err TypeError.
  Proof.
    induction fuel as [|f IH]; intros seqs out l hc; [discriminate|]. rewrite c3_loop_step.
    destruct (filter nonempty seqs) as [|s ne] eqn:e; [discriminate|].
    destruct (c3_candidate (s :: ne) (s :: ne)) as [c|] eqn:ec.
    - apply (IH _ _ (filter (fun x => negb (beq x c)) l)). destruct hc as [nd ss].
      split; [apply NoDup_filter; exact nd|]. intros s' i. apply in_map_iff in i. destruct i as (s0 & <- & i).
      destruct (c3_candidate_Some _ _ _ ec) as (_ & hn). rewrite <- e in hn.
      assert (nc : ~ In c (tl s0)).
      { intros h. assert (k : exists s, In s (filter nonempty seqs) /\ In c (tl s)) by (apply in_tail_filter; eauto).
        destruct k as (s1 & i1 & h1). exact (hn s1 i1 h1). }
      destruct s0 as [|x t]; simpl in *; [constructor|]. destruct (eq_dec x c) as [->|n].
      + apply Subseq_drop; [exact nd|eapply Subseq_tl; apply ss; exact i|exact nc].
      + apply Subseq_drop; [exact nd|apply ss; exact i|]. simpl. intros [->|h]; tauto.
    - exfalso. destruct (compatible_not_stuck _ _ hc) as (c & t & i & hn).
      + destruct s as [|x t]; [|exists x, t; apply nonempty_In; rewrite e; left; reflexivity].
        assert (k : In [] (filter nonempty seqs)) by (rewrite e; left; reflexivity). apply filter_In in k. destruct k as [_ k]. discriminate.
      + assert (i2 : In (c :: t) (s :: ne)) by (rewrite <- e; apply nonempty_In; exact i).
        destruct (c3_candidate_None _ _ ec c t i2) as (s' & i' & h). rewrite <- e in i'. apply filter_In in i'.
        exact (hn s' (proj1 i') h).
  Qed.

  Lemma c3_loop_cases seqs :
    (exists l, c3_loop (S (length (concat seqs))) seqs [] = Ok l) \/ c3_loop (S (length (concat seqs))) seqs [] = Err TypeError.
  Proof.
    destruct (c3_loop (S (length (concat seqs))) seqs []) as [l|e] eqn:h; [eauto|]. right.
    destruct (c3_loop_Err _ _ _ _ h) as [->| ->]; [|reflexivity].
    exfalso. revert h. apply c3_loop_fuel. lia.
  Qed.

  Lemma mro_ok (lin : A -> list A) bases l : mro lin bases = Ok l ->
    C3Merge (mro_seqs lin bases) l /\ NoDup l /\
    (forall x, In x l <-> In x bases \/ exists b, In b bases /\ In x (lin b)) /\
    Subseq bases l /\ (forall b, In b bases -> Subseq (lin b) l).
  Proof.
    intros h. apply c3_loop_C3Merge in h. destruct h as (l' & -> & hm). cbn [app].
    destruct (C3Merge_compatible _ _ hm) as [[nd ss] hin].
    split; [exact hm|]. split; [exact nd|]. split; [|split].
    - intros x. rewrite hin. unfold mro_seqs. split.
      + intros (s & i & hx). apply in_app_iff in i. destruct i as [i|[<-|[]]]; [|auto].
        apply in_map_iff in i. destruct i as (b & <- & i). eauto.
      + intros [i|(b & i & hx)]; [exists bases|exists (lin b)]; rewrite in_app_iff; split; try assumption.
        * right. left. reflexivity. * left. apply in_map. exact i.
    - apply ss. unfold mro_seqs. rewrite in_app_iff. right. left. reflexivity.
    - intros b i. apply ss. unfold mro_seqs. rewrite in_app_iff. left. apply in_map. exact i.
  Qed.

  Lemma mro_fails_iff (lin : A -> list A) bases :
    mro lin bases = Err TypeError <-> ~ exists l, Compatible (mro_seqs lin bases) l.
  Proof.
    unfold mro. split.
    - intros h (l & hc). revert h. eapply c3_loop_complete. exact hc.
    - intros h. destruct (c3_loop_cases (mro_seqs lin bases)) as [(l & e)|e]; [|exact e].
      destruct h. apply c3_loop_C3Merge in e. destruct e as (l' & -> & hm). exists l'. apply C3Merge_compatible. exact hm.
  Qed.

  Lemma mro_total (lin : A -> list A) bases : (exists l, mro lin bases = Ok l) \/ mro lin bases = Err TypeError.
  Proof. apply c3_loop_cases. Qed.

  Lemma C3Merge_single_list (l : list A) : NoDup l -> forall n, C3Merge [l; firstn n l] l.
  Proof.
    induction l as [|x l IH]; intros nd n.
    - rewrite firstn_nil. constructor. intros s [<-|[<-|[]]]; reflexivity.
    - inversion nd as [|? ? ni nd']; subst. destruct n as [|n].
      + apply (@C3_take A _ [] x l [[]] [l; []]); try reflexivity.
        * intros s [<-|[<-|[]]]; simpl; [exact ni|tauto].
        * simpl. tauto.
        * constructor; [left; reflexivity|]. constructor; [right; split; [reflexivity|discriminate]|constructor].
        * apply (IH nd' 0).
      + apply (@C3_take A _ [] x l [x :: firstn n l] [l; firstn n l]); try reflexivity.
        * intros s [<-|[<-|[]]]; simpl; [exact ni|]. intros h. apply ni. clear -h. revert n h.
          induction l as [|y l IH]; intros [|n]; simpl; try tauto. intros [->|h]; [auto|right; eapply IH; exact h].
        * simpl. tauto.
        * constructor; [left; reflexivity|]. constructor; [left; reflexivity|constructor].
        * apply IH, nd'.
  Qed.

  Lemma C3Merge_det (seqs : list (list A)) l1 : C3Merge seqs l1 -> forall l2, C3Merge seqs l2 -> l1 = l2.
  Proof.
    induction 1 as [seqs hd|seqs pre c t post seqs' l e nt hp f2 hm IH]; intros l2 h2.
    - inversion h2 as [|? pre c t post ? ? e]; subst; [reflexivity|].
      assert (k : In (c :: t) (pre ++ (c :: t) :: post)) by (rewrite in_app_iff; simpl; auto).
      apply hd in k. discriminate.
    - inversion h2 as [? hd|? pre2 c2 t2 post2 seqs2 l2' e2 nt2 hp2 f22 hm2]; subst.
      + assert (k : In (c :: t) (pre ++ (c :: t) :: post)) by (rewrite in_app_iff; simpl; auto).
        apply hd in k. discriminate.
      + assert (ec : c = c2).
        { clear -e2 nt nt2 hp hp2 EA. destruct (eq_dec c c2) as [e|ne]; [exact e|].
          assert (ip : In (c :: t) pre2 \/ In (c2 :: t2) pre).
          { clear -e2 ne. revert pre2 e2. induction pre as [|a pre IH]; intros [|b pre2] e2; simpl in e2; injection e2 as e1 e3.
            - congruence. - left. left. congruence. - right. left. congruence.
            - destruct (IH _ e3); [left|right]; right; assumption. }
          destruct ip as [i|i].
          - destruct (hp2 c t i) as (s & is & hs). destruct (nt s is hs).
          - destruct (hp c2 t2 i) as (s & is & hs). destruct (nt2 s is hs). }
        subst c2. f_equal. apply IH. replace seqs' with seqs2; [exact hm2|].
        clear -f2 f22. revert seqs2 f22. induction f2 as [|a b la lb hab f2 IH]; intros seqs2 f22; inversion f22 as [|a' b' la' lb' hab' f22']; subst; [reflexivity|].
        f_equal; [|apply IH; assumption]. destruct hab as [h|[h no]], hab' as [h'|[h' no']]; subst; try congruence.
  Qed.

  Lemma mro_single (lin : A -> list A) b t : lin b = b :: t -> NoDup (lin b) -> mro lin [b] = Ok (lin b).
  Proof.
    intros e nd. destruct (mro_total lin [b]) as [(l & h)|h].
    - rewrite h. f_equal. destruct (mro_ok _ _ _ h) as [hm _]. eapply C3Merge_det; [exact hm|].
      unfold mro_seqs. cbn [map app]. replace [b] with (firstn 1 (lin b)) by (rewrite e; reflexivity).
      apply C3Merge_single_list. exact nd.
    - exfalso. apply mro_fails_iff in h. apply h. exists (lin b). split; [exact nd|]. intros s [<-|[<-|[]]].
      + apply Subseq_refl. + rewrite e. apply SS_take. constructor.
  Qed.

  Lemma find_first (f : A -> bool) (l : list A) x :
    find f l = Some x <-> exists pre post, l = pre ++ x :: post /\ f x = true /\ forall y, In y pre -> f y = false.
  Proof.
    split.
    - induction l as [|y l IH]; simpl; [discriminate|]. destruct (f y) eqn:e.
      + injection 1 as <-. exists [], l. split; [reflexivity|]. split; [exact e|]. simpl. tauto.
      + intros h. destruct (IH h) as (pre & post & -> & h1 & h2). exists (y :: pre), post. split; [reflexivity|].
        split; [exact h1|]. intros z [<-|i]; auto.
    - intros (pre & post & -> & h1 & h2). induction pre as [|y pre IH]; simpl; [rewrite h1; reflexivity|].
      rewrite (h2 y) by (left; reflexivity). apply IH. intros z i. apply h2. right. exact i.
  Qed.

  Lemma gcs_spec (lin : A -> list A) c cs :
    (forall x, gcs lin (c :: cs) = Ok (Some x) <->
       exists pre post, lin c = pre ++ x :: post /\ (forall d, In d (c :: cs) -> In x (lin d)) /\
         forall y, In y pre -> exists d, In d (c :: cs) /\ ~ In y (lin d)) /\
    (gcs lin (c :: cs) = Ok None <-> ~ exists x, forall d, In d (c :: cs) -> In x (lin d)).
  Proof.
    assert (hall : forall x, forallb (mem x) (map lin (c :: cs)) = true <-> forall d, In d (c :: cs) -> In x (lin d)).
    { intros x. rewrite forallb_forall. split.
      - intros h d i. apply (mem_In EA). apply h. apply in_map. exact i.
      - intros h s i. apply in_map_iff in i. destruct i as (d & <- & i). apply (mem_In EA). apply h. exact i. }
    assert (hnot : forall x, forallb (mem x) (map lin (c :: cs)) = false <-> exists d, In d (c :: cs) /\ ~ In x (lin d)).
    { intros x. split.
      - intros h. apply forallb_false_exists in h. destruct h as (s & i & h).
        apply in_map_iff in i. destruct i as (d & <- & i).
        exists d. split; [exact i|]. apply mem_not_In in h. exact h.
      - intros (d & i & n). rewrite <- not_true_iff_false, hall. auto. }
    assert (e : gcs lin (c :: cs) = Ok (find (fun x => forallb (mem x) (map lin (c :: cs))) (lin c))) by reflexivity.
    rewrite e. split.
    - intros x. transitivity (find (fun x => forallb (mem x) (map lin (c :: cs))) (lin c) = Some x).
      + split; congruence.
      + rewrite find_first. split; intros (pre & post & h0 & h1 & h2); exists pre, post; (split; [exact h0|]); (split; [apply hall; exact h1|]);
          intros y i; apply hnot; auto.
    - split.
      + intros h (x & hx). assert (h' : find (fun x => forallb (mem x) (map lin (c :: cs))) (lin c) = None) by congruence.
        assert (k := find_none _ _ h' x (hx c (or_introl eq_refl))).
        apply hall in hx. cbv beta in k. rewrite hx in k. discriminate.
      + intros h. f_equal. destruct (find (fun x => forallb (mem x) (map lin (c :: cs))) (lin c)) as [x|] eqn:ef; [|reflexivity].
        destruct h. exists x. apply hall. apply find_some in ef. apply ef.
  Qed.
End MroProofs.
