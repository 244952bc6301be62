From Verif Require Import Bracket_Model Bracket_Spec.
From Coq Require Import Sorted.

Section GrouperProofs.
  Context {A : Type}.
  Lemma grouper_loop_concat n : forall (items page : list A), concat (grouper_loop n page items) = page ++ items.
  Proof.
    induction items as [|x items IH]; intros page; simpl; [reflexivity|].
    destruct (Z.eqb _ n); simpl; rewrite IH; [rewrite <- app_assoc; reflexivity|rewrite <- app_assoc; reflexivity].
  Qed.
  Lemma grouper_loop_shape (n : nat) : forall (items page : list A), length page < n ->
    exists full lastp, grouper_loop (Z.of_nat n) page items = full ++ [lastp] /\
      (forall p, In p full -> length p = n) /\ length lastp < n.
  Proof.
    induction items as [|x items IH]; intros page lt; simpl.
    - exists [], page. simpl. split; [reflexivity|]. split; [tauto|exact lt].
    - destruct (Z.eqb_spec (Z.of_nat (length (page ++ [x]))) (Z.of_nat n)) as [e|ne].
      + destruct (IH []) as (full & lp & e2 & h1 & h2); [simpl; lia|].
        exists ((page ++ [x]) :: full), lp. rewrite e2. split; [reflexivity|]. split; [|exact h2].
        intros p [<-|i]; [lia|auto].
      + rewrite app_length in ne. simpl in ne. destruct (IH (page ++ [x])) as (full & lp & e2 & h1 & h2).
        * rewrite app_length. simpl. lia.
        * exists full, lp. auto.
  Qed.
  Lemma grouper_loop_nonpos (z : Z) : (z <= 0)%Z -> forall (items page : list A), grouper_loop z page items = [page ++ items].
  Proof.
    intros le. induction items as [|x items IH]; intros page; simpl; [rewrite app_nil_r; reflexivity|].
    destruct (Z.eqb_spec (Z.of_nat (length (page ++ [x]))) z) as [e|ne].
    - rewrite app_length in e. simpl in e. lia.
    - rewrite IH, <- app_assoc. reflexivity.
  Qed.
End GrouperProofs.

Section BracketProofs.
  Context {A : Type} {EA : EqDec A}.
  Variables br cbr : A.
  Hypothesis neq : br <> cbr.
  Notation Bal := (Bal br cbr).
  Notation Matched := (Matched br cbr).
  Notation occ := occurrences.

  Lemma Bal_app s1 : Bal s1 -> forall s2, Bal s2 -> Bal (s1 ++ s2).
  Proof.
    induction 1 as [|c s n1 n2 h IH|a b ha IHa hb IHb]; intros s2 h2; simpl; [exact h2|constructor; auto|].
    rewrite <- app_assoc. simpl. apply B_wrap; auto.
  Qed.

  Lemma occ_app x l1 l2 : occ x (l1 ++ l2) = occ x l1 + occ x l2.
  Proof. unfold occurrences. rewrite filter_app, app_length. reflexivity. Qed.
  Lemma occ_cons x y l : occ x (y :: l) = (if beq x y then 1 else 0) + occ x l.
  Proof. unfold occurrences. simpl. destruct (beq x y); reflexivity. Qed.
  Lemma occ_same x l : occ x (x :: l) = S (occ x l).
  Proof. rewrite occ_cons, beq_refl. reflexivity. Qed.
  Lemma occ_diff x y l : x <> y -> occ x (y :: l) = occ x l.
  Proof. intros n. rewrite occ_cons. apply (beq_false EA) in n. rewrite n. reflexivity. Qed.

  (** in a balanced text every suffix has at least as many closings, every prefix at least as many openings *)
  Lemma Bal_suffix s : Bal s -> forall p q, s = p ++ q -> occ br q <= occ cbr q.
  Proof.
    induction 1 as [|c s n1 n2 h IH|s1 s2 h1 IH1 h2 IH2]; intros p q e.
    - destruct p; [|discriminate]. simpl in e. subst q. apply Nat.le_refl.
    - destruct p as [|x p]; simpl in e.
      + subst q. rewrite !occ_diff by congruence. apply (IH [] s eq_refl).
      + injection e as <- e. apply (IH p q e).
    - destruct p as [|x p]; simpl in e.
      + subst q. rewrite occ_same, occ_diff by congruence. rewrite !occ_app, occ_same, (occ_diff br cbr) by congruence.
        specialize (IH1 [] s1 eq_refl). specialize (IH2 [] s2 eq_refl). lia.
      + injection e as <- e. symmetry in e. apply app_eq_app in e. destruct e as (l & [(e1 & e2)|(e1 & e2)]).
        * destruct l as [|y l]; simpl in e2.
          -- subst q. rewrite occ_same, occ_diff by congruence. specialize (IH2 [] s2 eq_refl). lia.
          -- injection e2 as <- e2. apply (IH2 l q e2).
        * subst q. rewrite !occ_app, occ_same, (occ_diff br cbr) by congruence.
          specialize (IH1 p l e1). specialize (IH2 [] s2 eq_refl). lia.
  Qed.
  Lemma Bal_occ s : Bal s -> occ br s = occ cbr s.
  Proof.
    induction 1 as [|c s n1 n2 h IH|s1 s2 h1 IH1 h2 IH2]; [reflexivity| |].
    - rewrite !occ_diff by congruence. exact IH.
    - rewrite occ_same, occ_diff by congruence. rewrite !occ_app, occ_same, (occ_diff br cbr) by congruence. lia.
  Qed.

  (** [St p st]: after the prefix [p], the stack (top first) is [st] *)
  Inductive St : list A -> list nat -> Prop :=
  | St_nil b : Bal b -> St b []
  | St_push p st b : St p st -> Bal b -> St (p ++ br :: b) (length p :: st).

  Lemma St_bal p st : St p st -> forall b, Bal b -> St (p ++ b) st.
  Proof.
    destruct 1 as [b0 h|p st b0 h hb]; intros b h2; [constructor; apply Bal_app; assumption|].
    rewrite <- app_assoc. simpl. constructor; [exact h|apply Bal_app; assumption].
  Qed.
  Lemma St_other p st c : St p st -> c <> br -> c <> cbr -> St (p ++ [c]) st.
  Proof. intros h n1 n2. apply St_bal; [exact h|]. constructor; [assumption|assumption|constructor]. Qed.
  Lemma St_open p st : St p st -> St (p ++ [br]) (length p :: st).
  Proof. intros h. apply (St_push p st []); [exact h|constructor]. Qed.
  Lemma St_close p i st : St p (i :: st) -> St (p ++ [cbr]) st.
  Proof.
    intros h. inversion h as [|p0 st0 b h0 hb e1 e2]; subst. rewrite <- app_assoc. simpl. apply St_bal; [exact h0|].
    change (br :: b ++ [cbr]) with (br :: b ++ cbr :: []). apply B_wrap; [exact hb|constructor].
  Qed.
  Lemma St_occ p st : St p st -> occ br p = occ cbr p + length st.
  Proof.
    induction 1 as [b h|p st b h IH hb]; [rewrite (Bal_occ _ h); simpl; lia|].
    rewrite !occ_app, occ_same, occ_diff by congruence. rewrite (Bal_occ _ hb). simpl. lia.
  Qed.

  (** a decomposition with an open bracket followed by a balanced text ends at the top of the stack *)
  Lemma St_top p st a b : St p st -> p = a ++ br :: b -> Bal b -> exists st', st = length a :: st'.
  Proof.
    intros h e hb. inversion h as [b0 h0 e1 e2|p0 st0 b0 h0 hb0 e1 e2]; subst.
    - exfalso. specialize (Bal_suffix _ h0 a (br :: b) eq_refl). rewrite occ_same, occ_diff, (Bal_occ _ hb) by congruence. lia.
    - exists st0. f_equal. apply app_eq_app in e1. destruct e1 as (l & [(x1 & x2)|(x1 & x2)]).
      + destruct l as [|y l]; [rewrite app_nil_r in x1; congruence|]. simpl in x2. injection x2 as <- x2.
        exfalso. specialize (Bal_suffix _ hb l (br :: b0) x2). rewrite occ_same, occ_diff, (Bal_occ _ hb0) by congruence. lia.
      + destruct l as [|y l]; [rewrite app_nil_r in x1; congruence|]. simpl in x2. injection x2 as <- x2.
        exfalso. specialize (Bal_suffix _ hb0 l (br :: b) x2). rewrite occ_same, occ_diff, (Bal_occ _ hb) by congruence. lia.
  Qed.

  Lemma snoc_eq (a b : list A) x y : a ++ [x] = b ++ [y] -> a = b /\ x = y.
  Proof. apply app_inj_tail. Qed.

  Lemma Matched_snoc p c i j : Matched (p ++ [c]) i j <->
    Matched p i j \/ (c = cbr /\ j = length p /\ exists a b, p = a ++ br :: b /\ Bal b /\ i = length a).
  Proof.
    split.
    - intros (a & b & t & e & hb & ei & ej). destruct t as [|x t _] using rev_ind.
      + right. assert (e' : p ++ [c] = (a ++ br :: b) ++ [cbr]) by (rewrite e, <- app_assoc; reflexivity).
        apply snoc_eq in e'. destruct e' as (-> & ->). split; [reflexivity|]. split; [|eauto].
        rewrite app_length. simpl. lia.
      + left. assert (e' : p ++ [c] = (a ++ br :: b ++ cbr :: t) ++ [x]).
        { rewrite e, <- !app_assoc. simpl. rewrite <- app_assoc. reflexivity. }
        apply snoc_eq in e'. destruct e' as (-> & ->). exists a, b, t. auto.
    - intros [(a & b & t & e & hb & ei & ej)|(-> & ej & a & b & -> & hb & ei)].
      + exists a, b, (t ++ [c]). split; [|auto]. rewrite e, <- !app_assoc. simpl. rewrite <- app_assoc. reflexivity.
      + exists a, b, []. split; [rewrite <- app_assoc; reflexivity|]. split; [exact hb|]. split; [exact ei|].
        rewrite ej, app_length. simpl. lia.
  Qed.

  Lemma mk_bracket_ok (a b s : list A) :
    mk_bracket br cbr (a ++ br :: b ++ cbr :: s) (length a, length (a ++ br :: b)) = Ok (length a, length (a ++ br :: b)).
  Proof.
    unfold mk_bracket. cbn [fst snd].
    rewrite nth_error_app2 by lia. rewrite Nat.sub_diag. cbn [nth_error].
    replace (a ++ br :: b ++ cbr :: s) with ((a ++ br :: b) ++ cbr :: s) by (rewrite <- app_assoc; reflexivity).
    rewrite nth_error_app2 by lia. rewrite Nat.sub_diag. cbn [nth_error].
    rewrite !beq_refl. assert (lt : length a < length (a ++ br :: b)) by (rewrite app_length; simpl; lia).
    apply Nat.ltb_lt in lt. rewrite lt. reflexivity.
  Qed.

  Definition FoundInv (p : list A) (found : list (nat * nat)) : Prop :=
    (forall i j, In (i, j) found <-> Matched p i j) /\
    StronglySorted lt (map snd found) /\ (forall j, In j (map snd found) -> j < length p) /\
    (forall j, nth_error p j = Some cbr -> In j (map snd found)).

  Lemma StronglySorted_snoc (l : list nat) x : StronglySorted lt l -> (forall y, In y l -> y < x) -> StronglySorted lt (l ++ [x]).
  Proof.
    induction l as [|y l IH]; simpl; intros s h; [constructor; constructor|]. inversion s as [|? ? s' f]; subst. constructor.
    - apply IH; [exact s'|]. intros z i. apply h. right. exact i.
    - apply Forall_app. split; [exact f|]. constructor; [apply h; left; reflexivity|constructor].
  Qed.

  Lemma find_brackets_loop_spec : forall s p st found, St p st -> FoundInv p found ->
    match find_brackets_loop br cbr (p ++ s) (length p) st found s with
    | Ok r => FoundInv (p ++ s) r /\ exists st', St (p ++ s) st' /\ forall q q', s = q ++ q' -> exists st2, St (p ++ q) st2
    | Err e => e = IndexError /\ exists q q', s = q ++ cbr :: q' /\ St (p ++ q) []
    end.
  Proof.
    induction s as [|c s IH]; intros p st found hs hf; cbn [find_brackets_loop].
    - rewrite app_nil_r. split; [exact hf|]. exists st. split; [exact hs|]. intros q q' e. destruct q; [|discriminate].
      rewrite app_nil_r. eauto.
    - assert (assoc : forall x, p ++ x :: s = (p ++ [x]) ++ s) by (intros x; rewrite <- app_assoc; reflexivity).
      assert (len : forall x, S (length p) = length (p ++ [x])) by (intros x; rewrite app_length; simpl; lia).
      assert (tail : forall st1 found1, St (p ++ [c]) st1 -> FoundInv (p ++ [c]) found1 ->
        match find_brackets_loop br cbr (p ++ c :: s) (S (length p)) st1 found1 s with
        | Ok r => FoundInv (p ++ c :: s) r /\ exists st', St (p ++ c :: s) st' /\ forall q q', c :: s = q ++ q' -> exists st2, St (p ++ q) st2
        | Err e => e = IndexError /\ exists q q', c :: s = q ++ cbr :: q' /\ St (p ++ q) []
        end).
      { intros st1 found1 h1 f1. specialize (IH (p ++ [c]) st1 found1 h1 f1). rewrite (assoc c), (len c).
        destruct (find_brackets_loop br cbr ((p ++ [c]) ++ s) (length (p ++ [c])) st1 found1 s) as [r|e].
        - destruct IH as (a & st' & b & k). split; [exact a|]. exists st'. split; [exact b|]. intros q q' e.
          destruct q as [|x q]; [rewrite app_nil_r; eauto|]. injection e as <- e. rewrite <- (app_assoc p [c] q) in * || idtac.
          destruct (k q q' e) as (st2 & h2). exists st2. rewrite <- app_assoc in h2. exact h2.
        - destruct IH as (-> & q & q' & -> & h2). split; [reflexivity|]. exists (c :: q), q'. split; [reflexivity|].
          rewrite <- app_assoc in h2. exact h2. }
      destruct (beq_spec EA c cbr) as [->|nc].
      + assert (bf : beq cbr br = false) by (apply (beq_false EA); congruence). rewrite bf.
        destruct st as [|o st].
        * split; [reflexivity|]. exists [], s. split; [reflexivity|]. rewrite app_nil_r. exact hs.
        * inversion hs as [|p0 st0 b h0 hb e1 e2]; subst p st0 o.
          assert (mk := mk_bracket_ok p0 b s). rewrite app_comm_cons, app_assoc in mk.
          rewrite mk. cbn [rbind]. apply tail.
          -- eapply St_close. exact hs.
          -- destruct hf as (m & srt & bd & cl). split; [|split; [|split]].
             ++ intros i j. rewrite Matched_snoc, in_app_iff, m. split.
                ** intros [h|[e|[]]]; [left; exact h|]. injection e as <- <-. right. repeat split; eauto.
                ** intros [h|(_ & -> & a & b' & e & hb' & ->)]; [left; exact h|]. right. left.
                   destruct (St_top _ _ _ _ hs e hb') as (st' & e'). injection e' as -> _. reflexivity.
             ++ rewrite map_app. simpl. apply StronglySorted_snoc; assumption.
             ++ intros j i. rewrite map_app in i. apply in_app_iff in i. rewrite <- (len cbr). destruct i as [i|[<-|[]]]; [|simpl; lia].
                specialize (bd j i). lia.
             ++ intros j e. rewrite map_app, in_app_iff. destruct (Nat.lt_ge_cases j (length (p0 ++ br :: b))) as [l|g].
                ** rewrite nth_error_app1 in e by exact l. left. auto.
                ** right. left. simpl. assert (j < length ((p0 ++ br :: b) ++ [cbr])) by (apply nth_error_Some; congruence).
                   rewrite <- (len cbr) in H. lia.
      + assert (keep : FoundInv (p ++ [c]) found).
        { destruct hf as (m & srt & bd & cl). split; [|split; [|split]].
          - intros i j. rewrite Matched_snoc, m. split; [auto|]. intros [h|(e & _)]; [exact h|congruence].
          - exact srt.
          - intros j i. rewrite <- (len c). specialize (bd j i). lia.
          - intros j e. destruct (Nat.lt_ge_cases j (length p)) as [l|g].
            + rewrite nth_error_app1 in e by exact l. auto.
            + rewrite nth_error_app2 in e by exact g. destruct (j - length p) as [|n]; simpl in e; [congruence|destruct n; discriminate]. }
        destruct (beq_spec EA c br) as [->|nb]; apply tail; try exact keep; [apply St_open; exact hs|apply St_other; assumption].
  Qed.

  Lemma FoundInv_nil : FoundInv [] [].
  Proof.
    split; [|split; [constructor|split]].
    - intros i j. split; [intros []|]. intros (a & b & c & e & _). destruct a; discriminate.
    - intros j [].
    - intros j e. destruct j; discriminate.
  Qed.
  Lemma St_start : St [] []. Proof. constructor. constructor. Qed.

  Lemma find_brackets_ok t ps : find_brackets br cbr t = Ok ps ->
    (forall i j, In (i, j) ps <-> Matched t i j) /\ StronglySorted lt (map snd ps) /\
    (forall j, nth_error t j = Some cbr -> In j (map snd ps)).
  Proof.
    intros e. assert (h := find_brackets_loop_spec t [] [] [] St_start FoundInv_nil). cbn [app length] in h.
    unfold find_brackets in e. rewrite e in h. destruct h as ((m & s & _ & c) & _). auto.
  Qed.
  Lemma find_brackets_err t : (forall e, find_brackets br cbr t = Err e -> e = IndexError) /\
    (find_brackets br cbr t = Err IndexError <-> Overclosed br cbr t).
  Proof.
    assert (h := find_brackets_loop_spec t [] [] [] St_start FoundInv_nil). cbn [app length] in h. unfold find_brackets.
    destruct (find_brackets_loop br cbr t 0 [] [] t) as [r|e].
    - split; [discriminate|]. split; [discriminate|]. intros (p & q & e & lt). destruct h as (_ & _ & _ & k).
      destruct (k p q e) as (st & hs). apply St_occ in hs. lia.
    - destruct h as (-> & q & q' & et & hs). split; [congruence|]. split; [|reflexivity]. intros _.
      exists (q ++ [cbr]), q'. split; [rewrite et, <- app_assoc; reflexivity|]. apply St_occ in hs. simpl in hs.
      rewrite !occ_app, occ_same, (occ_diff br cbr) by congruence. unfold occurrences at 2. simpl. lia.
  Qed.

  (** two pairs are disjoint or nested *)
  Lemma Matched_lt t i j : Matched t i j -> i < j.
  Proof. intros (a & b & c & _ & _ & -> & ->). lia. Qed.
  Lemma Matched_prefix p c i j : Matched (p ++ [c]) i j -> j < length p -> Matched p i j.
  Proof. intros h lt. apply Matched_snoc in h. destruct h as [h|(_ & -> & _)]; [exact h|lia]. Qed.
  Lemma Matched_laminar t i1 j1 i2 j2 : Matched t i1 j1 -> Matched t i2 j2 -> j1 < j2 -> j1 < i2 \/ i2 < i1.
  Proof.
    intros (a1 & b1 & c1 & e1 & hb1 & -> & ->) (a2 & b2 & c2 & e2 & hb2 & -> & ->) lt.
    destruct (Nat.lt_ge_cases (length a1 + 1 + length b1) (length a2)) as [l|g]; [left; exact l|right].
    rewrite e1 in e2.
    (* j1 lies inside the text between i2 and j2 *)
    assert (x1 : a1 ++ br :: b1 ++ cbr :: c1 = (a1 ++ br :: b1) ++ cbr :: c1) by (rewrite <- app_assoc; reflexivity).
    assert (x2 : a2 ++ br :: b2 ++ cbr :: c2 = (a2 ++ br :: b2) ++ cbr :: c2) by (rewrite <- app_assoc; reflexivity).
    destruct (Nat.eq_dec (length a2) (length a1)) as [ea|na].
    - (* same opening: then b1 and b2 both end at the first closing *)
      exfalso. assert (f := e2). apply (f_equal (firstn (length a1))) in f. rewrite <- ea in f at 2.
      rewrite !firstn_app, !Nat.sub_diag, !firstn_all, !firstn_O, !app_nil_r in f. subst a2. clear ea.
      apply app_inv_head in e2. injection e2 as e2. apply app_eq_app in e2. destruct e2 as (l & [(y1 & y2)|(y1 & y2)]).
      + assert (length b1 = length b2 + length l) by (rewrite y1, app_length; lia). lia.
      + destruct l as [|y l]; [rewrite app_nil_r in y1; subst; lia|]. simpl in y2. injection y2 as <- y2.
        specialize (Bal_occ _ hb2). specialize (Bal_occ _ hb1). rewrite y1. rewrite !occ_app, occ_same, (occ_diff br cbr) by congruence.
        specialize (Bal_suffix _ hb2 (b1 ++ [cbr]) l). intros z1 z2 z3. assert (z4 : occ br l <= occ cbr l).
        { apply z1. rewrite y1, <- app_assoc. reflexivity. } lia.
    - destruct (Nat.lt_ge_cases (length a2) (length a1)) as [l|g2]; [exact l|exfalso].
      (* a1 < a2 <= j1 < j2 *)
      assert (l : length a1 < length a2) by lia.
      apply app_eq_app in e2. destruct e2 as (m & [(y1 & y2)|(y1 & y2)]).
      + assert (length a1 = length a2 + length m) by (rewrite y1, app_length; lia). lia.
      + destruct m as [|y m]; [rewrite app_nil_r in y1; subst; lia|]. simpl in y2. injection y2 as <- y2.
        (* b1 ++ cbr :: c1 = m ++ br :: b2 ++ cbr :: c2 , length m <= length b1 *)
        assert (la2 : length a2 = length a1 + 1 + length m) by (rewrite y1, app_length; simpl; lia).
        apply app_eq_app in y2. destruct y2 as (w & [(w1 & w2)|(w1 & w2)]).
        * destruct w as [|z w]; simpl in w2; [injection w2 as w2; congruence|]. injection w2 as <- w2.
          (* b1 = m ++ br :: w, b2 ++ cbr :: c2 = w ++ cbr :: c1 *)
          assert (lw : length b1 = length m + 1 + length w) by (rewrite w1, app_length; simpl; lia).
          apply app_eq_app in w2. destruct w2 as (v & [(v1 & v2)|(v1 & v2)]).
          -- assert (lb : length b2 = length w + length v) by (rewrite v1, app_length; lia).
             destruct v as [|z v]; [simpl in lb; lia|]. simpl in v2. injection v2 as <- v2.
             specialize (Bal_suffix _ hb1 m (br :: w) w1). rewrite occ_same, occ_diff by congruence. intros z1.
             (* prefix w of b2 followed by cbr: more closings than openings in a balanced text prefix *)
             assert (z2 := Bal_occ _ hb2). rewrite v1, !occ_app, occ_same, (occ_diff br cbr) in z2 by congruence.
             assert (z3 : occ br v <= occ cbr v).
             { apply (Bal_suffix _ hb2 (w ++ [cbr]) v). rewrite v1, <- app_assoc. reflexivity. }
             lia.
          -- assert (lb : length w = length b2 + length v) by (rewrite v1, app_length; lia). lia.
        * assert (length m = length b1 + length w) by (rewrite w1, app_length; lia).
          destruct w as [|z w]; [|simpl in *; lia]. simpl in w2. injection w2 as w2 _. congruence.
  Qed.

  (** ** find_closing_bracket *)
  Lemma closing_bal b : Bal b -> forall ctx i o st rest,
    find_closing_loop br cbr ctx i (o :: st) (b ++ rest) = find_closing_loop br cbr ctx (i + length b) (o :: st) rest.
  Proof.
    induction 1 as [|c s n1 n2 h IH|s1 s2 h1 IH1 h2 IH2]; intros ctx i o st rest.
    - simpl. rewrite Nat.add_0_r. reflexivity.
    - cbn [app find_closing_loop]. apply (beq_false EA) in n1, n2. rewrite n1, n2, IH. simpl. f_equal. lia.
    - cbn [app find_closing_loop]. rewrite beq_refl. assert (e : beq br cbr = false) by (apply (beq_false EA); exact neq). rewrite e.
      rewrite <- app_assoc, IH1. cbn [app find_closing_loop].
      assert (e2 : beq cbr br = false) by (apply (beq_false EA); congruence). rewrite beq_refl, e2, IH2.
      f_equal. simpl. rewrite app_length. simpl. lia.
  Qed.
  Lemma closing_st u su : St u su -> forall ctx i o st rest,
    find_closing_loop br cbr ctx i (o :: st) (u ++ rest) =
    find_closing_loop br cbr ctx (i + length u) (map (fun x => i + x) su ++ o :: st) rest.
  Proof.
    induction 1 as [b h|p su b h IH hb]; intros ctx i o st rest; [apply closing_bal; exact h|].
    rewrite <- app_assoc, IH. cbn [app find_closing_loop]. rewrite beq_refl.
    assert (e : beq br cbr = false) by (apply (beq_false EA); exact neq). rewrite e.
    rewrite closing_bal by exact hb. cbn [map]. f_equal. rewrite app_length. simpl. lia.
  Qed.
  Lemma closing_free a : BracketFree br cbr a -> forall ctx i st rest,
    find_closing_loop br cbr ctx i st (a ++ rest) = find_closing_loop br cbr ctx (i + length a) st rest.
  Proof.
    induction a as [|x a IH]; intros (n1 & n2) ctx i st rest; simpl in *; [rewrite Nat.add_0_r; reflexivity|].
    assert (e1 : beq x br = false) by (apply (beq_false EA); tauto).
    assert (e2 : beq x cbr = false) by (apply (beq_false EA); tauto).
    rewrite e1, e2, IH by (split; tauto). f_equal. lia.
  Qed.

  Definition Kind1 (t : list A) i j c := exists a d, t = a ++ br :: c ++ cbr :: d /\ BracketFree br cbr a /\ Bal c /\
    i = length a /\ j = length a + 1 + length c.
  Definition Kind2 (t : list A) := exists a d, t = a ++ cbr :: d /\ BracketFree br cbr a.

  Lemma closing_kind1 t i j c : Kind1 t i j c -> find_closing_bracket br cbr t = Ok (Some ((i, j), c)).
  Proof.
    intros (a & d & -> & free & hb & -> & ->). unfold find_closing_bracket. rewrite closing_free by exact free.
    cbn [find_closing_loop Nat.add]. rewrite beq_refl. assert (e : beq br cbr = false) by (apply (beq_false EA); exact neq). rewrite e.
    rewrite closing_bal by exact hb. cbn [find_closing_loop].
    assert (e2 : beq cbr br = false) by (apply (beq_false EA); congruence). rewrite beq_refl, e2.
    assert (x : firstn (S (length a) + length c - (length a + 1)) (skipn (length a + 1) (a ++ br :: c ++ cbr :: d)) = c).
    { replace (a ++ br :: c ++ cbr :: d) with ((a ++ [br]) ++ c ++ cbr :: d) by (rewrite <- app_assoc; reflexivity).
      rewrite skipn_app, skipn_all2 by (rewrite app_length; simpl; lia).
      replace (length a + 1 - length (a ++ [br])) with 0 by (rewrite app_length; simpl; lia). cbn [skipn app].
      replace (S (length a) + length c - (length a + 1)) with (length c) by lia.
      rewrite firstn_app, firstn_all, Nat.sub_diag, firstn_O, app_nil_r. reflexivity. }
    rewrite x. replace (S (length a) + length c) with (length a + 1 + length c) by lia. reflexivity.
  Qed.
  Lemma closing_kind2 t : Kind2 t -> find_closing_bracket br cbr t = Err IndexError.
  Proof.
    intros (a & d & -> & free). unfold find_closing_bracket. rewrite closing_free by exact free. cbn [find_closing_loop].
    assert (e2 : beq cbr br = false) by (apply (beq_false EA); congruence). rewrite beq_refl, e2. reflexivity.
  Qed.
  Lemma first_bracket t : BracketFree br cbr t \/ (exists a u, t = a ++ br :: u /\ BracketFree br cbr a) \/ Kind2 t.
  Proof.
    induction t as [|x t IH]; [left; split; intros []|].
    destruct (eq_dec x br) as [->|n1]; [right; left; exists [], t; split; [reflexivity|split; intros []]|].
    destruct (eq_dec x cbr) as [->|n2]; [right; right; exists [], t; split; [reflexivity|split; intros []]|].
    assert (ext : forall a, BracketFree br cbr a -> BracketFree br cbr (x :: a)) by (intros a (m1 & m2); split; intros [h|h]; congruence || tauto).
    destruct IH as [h|[(a & u & -> & h)|(a & u & -> & h)]]; [left; auto|right; left|right; right]; exists (x :: a), u; auto.
  Qed.
  Lemma split_or_open u : (exists c d, u = c ++ cbr :: d /\ Bal c) \/ exists st, St u st.
  Proof.
    induction u as [|x u IH] using rev_ind; [right; exists []; apply St_start|].
    destruct IH as [(c & d & -> & h)|(st & h)]; [left; exists c, (d ++ [x]); rewrite <- app_assoc; auto|].
    destruct (eq_dec x cbr) as [->|n2].
    - destruct st as [|o st]; [left; exists u, []; inversion h; auto|right; exists st; eapply St_close; exact h].
    - destruct (eq_dec x br) as [->|n1]; right; eexists; [apply St_open; exact h|apply St_other; eassumption].
  Qed.
  Lemma closing_cases t :
    (exists i j c, Kind1 t i j c) \/ Kind2 t \/ find_closing_bracket br cbr t = Ok None.
  Proof.
    destruct (first_bracket t) as [h|[(a & u & -> & h)|h]]; [|destruct (split_or_open u) as [(c & d & -> & hb)|(st & hs)]|auto].
    - right; right. unfold find_closing_bracket. rewrite <- (app_nil_r t) at 2. rewrite closing_free by exact h. reflexivity.
    - left. exists (length a), (length a + 1 + length c), c, a, d. auto.
    - right; right. unfold find_closing_bracket. rewrite closing_free by exact h. cbn [find_closing_loop].
      rewrite beq_refl. assert (e : beq br cbr = false) by (apply (beq_false EA); exact neq). rewrite e.
      rewrite <- (app_nil_r u) at 2. rewrite (closing_st _ _ hs). reflexivity.
  Qed.
  Lemma closing_some t i j c : find_closing_bracket br cbr t = Ok (Some ((i, j), c)) <-> Kind1 t i j c.
  Proof.
    split; [|apply closing_kind1]. intros e. destruct (closing_cases t) as [(i' & j' & c' & h)|[h|h]].
    - assert (x := closing_kind1 _ _ _ _ h). rewrite e in x. injection x as -> -> ->. exact h.
    - rewrite (closing_kind2 _ h) in e. discriminate.
    - congruence.
  Qed.
  Lemma closing_err t e : find_closing_bracket br cbr t = Err e <-> e = IndexError /\ Kind2 t.
  Proof.
    split; [|intros (-> & h); apply closing_kind2; exact h]. intros x. destruct (closing_cases t) as [(i' & j' & c' & h)|[h|h]].
    - rewrite (closing_kind1 _ _ _ _ h) in x. discriminate.
    - rewrite (closing_kind2 _ h) in x. injection x as <-. auto.
    - congruence.
  Qed.

  (** [is_in] on two matched pairs means "comes entirely before", never "is nested in" *)
  Lemma is_in_before t p q : Matched t (fst p) (snd p) -> Matched t (fst q) (snd q) ->
    (is_in p q = true <-> snd p < fst q).
  Proof.
    intros hp hq. unfold is_in. rewrite andb_true_iff, !Nat.ltb_lt. assert (lp := Matched_lt _ _ _ hp). assert (lq := Matched_lt _ _ _ hq).
    split; [|lia]. intros (l1 & l2). destruct (Matched_laminar _ _ _ _ _ hp hq l2); lia.
  Qed.
End BracketProofs.

Lemma get_brackets_distinct b o c : get_brackets b = Ok (o, c) -> o <> c.
Proof.
  unfold get_brackets. destruct (find _ brackets_table) as [p|] eqn:e; [|discriminate]. injection 1 as ->.
  apply find_some in e. destruct e as (i & _). simpl in i. intuition congruence.
Qed.
Lemma get_brackets_char x : get_brackets [x] =
  match find (fun p => beq x (fst p) || beq x (snd p)) brackets_table with Some p => Ok p | None => Err InvalidValue end.
Proof.
  unfold get_brackets. assert (e : forall l, find (fun p => contains_sub [x] [fst p; snd p]) l = find (fun p => beq x (fst p) || beq x (snd p)) l).
  { assert (q : forall a b, contains_sub [x] [a; b] = beq x a || beq x b).
    { intros a b. simpl. rewrite !andb_true_r, orb_false_r. reflexivity. }
    induction l as [|p l IH]; cbn [find]; [reflexivity|]. rewrite IH, q. reflexivity. }
  rewrite e. reflexivity.
Qed.
