From Verif Require Import Cmp_Spec Cmp_Proofs Arr_Model Arr_Spec.

(** * Positions *)
Lemma py_pos_refers n i p : py_pos n i = Ok p <-> Refers n i p.
Proof.
  unfold py_pos. split.
  - destruct (Z.ltb_spec i 0) as [hn | hn].
    + destruct (Z.ltb_spec (i + Z.of_nat n) 0); [discriminate|]. destruct (Z.ltb_spec (i + Z.of_nat n) (Z.of_nat n)); [|discriminate].
      intros h; injection h as h. subst p. replace i with (Z.of_nat (Z.to_nat (i + Z.of_nat n)) - Z.of_nat n)%Z at 1 by lia.
      apply Ref_neg. lia.
    + destruct (Z.ltb_spec i 0); [lia|]. destruct (Z.ltb_spec i (Z.of_nat n)); [|discriminate].
      intros h; injection h as h. subst p. replace i with (Z.of_nat (Z.to_nat i)) at 1 by lia. apply Ref_pos. lia.
  - intros [q hq | q hq].
    + destruct (Z.ltb_spec (Z.of_nat q) 0); [lia|]. destruct (Z.ltb_spec (Z.of_nat q) 0); [lia|].
      destruct (Z.ltb_spec (Z.of_nat q) (Z.of_nat n)); [|lia]. rewrite Nat2Z.id. reflexivity.
    + destruct (Z.ltb_spec (Z.of_nat q - Z.of_nat n) 0); [|lia].
      destruct (Z.ltb_spec (Z.of_nat q - Z.of_nat n + Z.of_nat n) 0); [lia|].
      destruct (Z.ltb_spec (Z.of_nat q - Z.of_nat n + Z.of_nat n) (Z.of_nat n)); [|lia]. f_equal. lia.
Qed.
Lemma py_pos_out n i : py_pos n i = Err IndexError <-> OutOfRange n i.
Proof.
  unfold py_pos, OutOfRange.
  destruct (Z.ltb_spec i 0) as [hn | hn].
  - destruct (Z.ltb_spec (i + Z.of_nat n) 0); [split; [intros _; lia | reflexivity]|].
    destruct (Z.ltb_spec (i + Z.of_nat n) (Z.of_nat n)); [split; [discriminate | lia] | split; [lia | reflexivity]].
  - destruct (Z.ltb_spec i 0); [lia|].
    destruct (Z.ltb_spec i (Z.of_nat n)); [split; [discriminate | lia] | split; [lia | reflexivity]].
Qed.
Lemma py_pos_cases n i : (exists p, py_pos n i = Ok p /\ p < n) \/ py_pos n i = Err IndexError.
Proof.
  destruct (py_pos n i) as [p | e] eqn:h.
  - left. exists p. split; [reflexivity|]. apply py_pos_refers in h. destruct h; assumption.
  - right. unfold py_pos in h. repeat destruct (Z.ltb _ _); congruence.
Qed.
Lemma py_pos_nat n p : p < n -> py_pos n (Z.of_nat p) = Ok p.
Proof. intros h. apply py_pos_refers. apply Ref_pos. exact h. Qed.
Lemma inserts_clamp n i p : InsertsAt n i p -> py_clamp n i = p /\ p <= n /\ (- Z.of_nat n - 1 <= i <= Z.of_nat n)%Z.
Proof.
  intros h. unfold py_clamp. destruct h as [p hp | p hp |].
  - destruct (Z.ltb_spec (Z.of_nat p) 0); lia.
  - destruct (Z.ltb_spec (Z.of_nat p - Z.of_nat n) 0); lia.
  - destruct (Z.ltb_spec (- Z.of_nat n - 1) 0); lia.
Qed.
Lemma clamp_inserts n i : (- Z.of_nat n - 1 <= i <= Z.of_nat n)%Z -> InsertsAt n i (py_clamp n i).
Proof.
  intros h. unfold py_clamp. destruct (Z.ltb_spec i 0) as [hn | hn].
  - destruct (Z.eq_dec i (- Z.of_nat n - 1)) as [-> | hne].
    + replace (Z.to_nat (Z.max 0 (- Z.of_nat n - 1 + Z.of_nat n))) with 0 by lia. apply Ins_first.
    + replace i with (Z.of_nat (Z.to_nat (Z.max 0 (i + Z.of_nat n))) - Z.of_nat n)%Z at 1 by lia. apply Ins_neg. lia.
  - replace i with (Z.of_nat (Nat.min (Z.to_nat i) n)) at 1 by lia. apply Ins_pos. lia.
Qed.
Lemma clamp_le n i : py_clamp n i <= n.
Proof. unfold py_clamp. destruct (Z.ltb_spec i 0); lia. Qed.

(** * Parallel lists *)
Section Par.
  Context {A B : Type} (R : A -> B -> Prop).
  Lemma F2_firstn l1 l2 n : Forall2 R l1 l2 -> Forall2 R (firstn n l1) (firstn n l2).
  Proof. intros h. revert n. induction h; intros [|n]; simpl; constructor; auto. Qed.
  Lemma F2_skipn l1 l2 n : Forall2 R l1 l2 -> Forall2 R (skipn n l1) (skipn n l2).
  Proof. intros h. revert n. induction h; intros [|n]; simpl; try constructor; auto. Qed.
  Lemma F2_len l1 l2 : Forall2 R l1 l2 -> length l1 = length l2.
  Proof. induction 1; simpl; congruence. Qed.
  Lemma F2_insert l1 l2 i x y : Forall2 R l1 l2 -> R x y -> Forall2 R (py_insert i x l1) (py_insert i y l2).
  Proof.
    intros h hr. unfold py_insert. rewrite (F2_len _ _ h). apply Forall2_app; [apply F2_firstn, h|].
    constructor; [exact hr|]. apply F2_skipn, h.
  Qed.
  Lemma F2_put l1 l2 p x y : Forall2 R l1 l2 -> R x y ->
    Forall2 R (firstn p l1 ++ x :: skipn (S p) l1) (firstn p l2 ++ y :: skipn (S p) l2).
  Proof. intros h hr. apply Forall2_app; [apply F2_firstn, h|]. constructor; [exact hr|]. apply F2_skipn, h. Qed.
  Lemma F2_drop l1 l2 p : Forall2 R l1 l2 -> Forall2 R (firstn p l1 ++ skipn (S p) l1) (firstn p l2 ++ skipn (S p) l2).
  Proof. intros h. apply Forall2_app; [apply F2_firstn, h | apply F2_skipn, h]. Qed.
  Lemma F2_nth l1 l2 p : Forall2 R l1 l2 ->
    (exists x y, nth_error l1 p = Some x /\ nth_error l2 p = Some y /\ R x y) \/ (nth_error l1 p = None /\ nth_error l2 p = None).
  Proof. intros h. revert p. induction h as [|x y l1 l2 hr h IH]; intros [|p]; simpl; eauto 6. Qed.
End Par.
Lemma put_same {A} (l : list A) p x : nth_error l p = Some x -> firstn p l ++ x :: skipn (S p) l = l.
Proof.
  revert p. induction l as [|a l IH]; intros [|p] h; simpl in *; try discriminate; [congruence|]. f_equal. apply IH, h.
Qed.
Lemma nth_put {A} (l : list A) p x : p < length l -> nth_error (firstn p l ++ x :: skipn (S p) l) p = Some x.
Proof.
  intros h. rewrite nth_error_app2; rewrite firstn_length, Nat.min_l by lia; [|lia]. rewrite Nat.sub_diag. reflexivity.
Qed.
Lemma len_put {A} (l : list A) p x : p < length l -> length (firstn p l ++ x :: skipn (S p) l) = length l.
Proof. intros h. rewrite app_length, firstn_length. cbn [length]. rewrite skipn_length. lia. Qed.
Lemma len_insert {A} i (x : A) l : length (py_insert i x l) = S (length l).
Proof.
  unfold py_insert. pose proof (clamp_le (length l) i). rewrite app_length, firstn_length. cbn [length]. rewrite skipn_length. lia.
Qed.
Lemma put_app {A} (l1 : list A) x l2 y : firstn (length l1) (l1 ++ x :: l2) ++ y :: skipn (S (length l1)) (l1 ++ x :: l2) = l1 ++ y :: l2.
Proof.
  rewrite firstn_app, Nat.sub_diag, firstn_all, firstn_O, app_nil_r. f_equal. f_equal.
  rewrite skipn_app, skipn_all2 by lia. replace (S (length l1) - length l1) with 1 by lia. reflexivity.
Qed.
Lemma drop_app {A} (l1 : list A) x l2 : firstn (length l1) (l1 ++ x :: l2) ++ skipn (S (length l1)) (l1 ++ x :: l2) = l1 ++ l2.
Proof.
  rewrite firstn_app, Nat.sub_diag, firstn_all, firstn_O, app_nil_r. f_equal.
  rewrite skipn_app, skipn_all2 by lia. replace (S (length l1) - length l1) with 1 by lia. reflexivity.
Qed.
Lemma nth_mid {A} (l1 : list A) x l2 : nth_error (l1 ++ x :: l2) (length l1) = Some x.
Proof. rewrite nth_error_app2, Nat.sub_diag by lia. reflexivity. Qed.

Lemma skipn_nth {A} (l : list A) p x : nth_error l p = Some x -> skipn p l = x :: skipn (S p) l.
Proof. revert p. induction l as [|a l IH]; intros [|p] h; cbn in *; try discriminate; [congruence|]. apply IH, h. Qed.

Lemma first_unique x l1 : forall y l2 m1 z m2, l1 ++ y :: l2 = m1 ++ z :: m2 -> FirstEqual x l1 y -> FirstEqual x m1 z -> length m1 = length l1.
Proof.
  induction l1 as [|a l1 IH]; intros y l2 [|b m1] z m2 he [hx hy] [hm hz]; cbn in *.
  - reflexivity.
  - injection he as <- _. exfalso. exact (hm y (or_introl eq_refl) hy).
  - injection he as <- _. exfalso. exact (hx a (or_introl eq_refl) hz).
  - injection he as <- he. f_equal. apply (IH y l2 m1 z m2); [exact he | split; auto | split; auto].
Qed.

Section Refine.
  Variable ev : pyval -> res pyval.
  Variable prim : bool.
  Variable expr : pyval -> bool.
  Hypothesis stable : Stable ev.
  Variable unique : bool.
  Hypothesis hashes : unique = true -> forall v w, ev v = Ok w -> Query_Model.hashable w = true.

  (** the array stands for the list [l] *)
  Definition Rep (s : arr) (l : list pyval) : Prop :=
    Forall2 (fun d w => ev d = Ok w) (a_data s) l /\ Forall2 (fun v w => v = VNone \/ v = w) (a_val s) l.

  Lemma rep_fresh raw l : Forall2 (fun d w => ev d = Ok w) raw l -> Rep (a_fresh raw) l.
  Proof.
    intros h. split; [exact h|]. cbn. induction h as [|d w raw l hd h IH]; cbn; constructor; [left; reflexivity | exact IH].
  Qed.
  Lemma rep_len s l : Rep s l -> length (a_data s) = length l /\ length (a_val s) = length l.
  Proof. intros [h1 h2]. split; [exact (F2_len _ _ _ h1) | exact (F2_len _ _ _ h2)]. Qed.

  Lemma evaluate_ok s l i p w : length (a_data s) = length (a_val s) -> py_pos (length (a_data s)) i = Ok p ->
    (exists d, nth_error (a_data s) p = Some d /\ ev d = Ok w) ->
    exists d', a_evaluate ev prim expr i s = Ok {| a_data := d'; a_val := firstn p (a_val s) ++ w :: skipn (S p) (a_val s) |} /\
               (Forall2 (fun d w => ev d = Ok w) (a_data s) l -> Forall2 (fun d w => ev d = Ok w) d' l).
  Proof.
    intros hlen hp (d & hd & hw). unfold a_evaluate, a_set_validated, py_get, py_set. rewrite <- hlen, hp. cbn. rewrite hd. cbn.
    rewrite hw. cbn. destruct (prim && expr d) eqn:hx; cbn.
    - exists (a_data s). split; [reflexivity | auto].
    - eexists. split; [reflexivity|]. intros h.
      destruct (F2_nth _ _ _ p h) as [(x & y & hx1 & hy & hxy) | [hn _]]; [|congruence].
      rewrite hd in hx1. injection hx1 as <-. rewrite hw in hxy. injection hxy as <-.
      rewrite <- (put_same l p w hy). apply F2_put; [exact h|]. exact (stable _ _ hw).
  Qed.

  Lemma get_rep s l i : Rep s l -> exists s', a_get ev prim expr i s = (py_get i l, s') /\ Rep s' l.
  Proof.
    intros hr. destruct (rep_len _ _ hr) as [hl1 hl2]. destruct hr as [h1 h2]. unfold a_get.
    destruct (py_pos_cases (length l) i) as [(p & hp & hlt) | hout].
    - assert (hpv : py_pos (length (a_val s)) i = Ok p) by (rewrite hl2; exact hp).
      destruct (F2_nth _ _ _ p h2) as [(v & w & hv & hw & hvw) | [_ hn]]; [|apply nth_error_None in hn; lia].
      destruct (F2_nth _ _ _ p h1) as [(d & w' & hd & hw' & hdw) | [_ hn]]; [|apply nth_error_None in hn; lia].
      rewrite hw in hw'. injection hw' as <-.
      assert (hgl : py_get i l = Ok w) by (unfold py_get; rewrite hp; cbn; rewrite hw; reflexivity).
      rewrite hgl. unfold py_get at 1. rewrite hpv. cbn [rbind]. rewrite hv.
      assert (hev : v = VNone -> exists s', match a_evaluate ev prim expr i s with
                     | Ok s' => (py_get i (a_val s'), s') | Err e => (Err e, s) end = (Ok w, s') /\ Rep s' l).
      { intros ->.
        destruct (evaluate_ok s l i p w) as (d' & he & hd'); [congruence | rewrite hl1; exact hp | eauto |]. rewrite he.
        eexists. split; [unfold py_get; cbn [a_val]; rewrite len_put by lia; rewrite hpv; cbn [rbind]; rewrite nth_put by lia; reflexivity|].
        split; cbn; [exact (hd' h1)|]. rewrite <- (put_same l p w hw). apply F2_put; [exact h2 | right; reflexivity]. }
      destruct hvw as [-> | ->]; [exact (hev eq_refl)|].
      destruct w; try (eexists; split; [reflexivity | split; assumption]). exact (hev eq_refl).
    - unfold py_get. rewrite hl2, hout. cbn. eexists. split; [reflexivity | split; assumption].
  Qed.

  Lemma set_rep s l i v w p : Rep s l -> py_pos (length l) i = Ok p -> ev v = Ok w ->
    exists s', a_set ev prim expr false i v s = (Ok VNone, s') /\ Rep s' (firstn p l ++ w :: skipn (S p) l).
  Proof.
    intros hr hp hv. destruct (rep_len _ _ hr) as [hl1 hl2]. destruct hr as [h1 h2].
    assert (hlt : p < length l) by (apply py_pos_refers in hp; destruct hp; assumption).
    unfold a_set, py_set. rewrite hl1, hp. cbn [rbind].
    destruct (evaluate_ok {| a_data := firstn p (a_data s) ++ v :: skipn (S p) (a_data s); a_val := a_val s |}
                (firstn p l ++ w :: skipn (S p) l) i p w) as (d' & he & hd'); cbn [a_data a_val] in *.
    - rewrite len_put by lia. congruence.
    - rewrite len_put by lia. rewrite hl1. exact hp.
    - exists v. split; [apply nth_put; lia | exact hv].
    - rewrite he. eexists. split; [reflexivity|]. split; cbn.
      + apply hd'. apply F2_put; assumption.
      + apply F2_put; [exact h2 | right; reflexivity].
  Qed.
  Lemma set_out s l i v lz : Rep s l -> py_pos (length l) i = Err IndexError -> a_set ev prim expr lz i v s = (Err IndexError, s).
  Proof. intros hr hp. destruct (rep_len _ _ hr) as [hl1 _]. unfold a_set, py_set. rewrite hl1, hp. reflexivity. Qed.

  Lemma put_rep s l i v w lz : Rep s l -> (- Z.of_nat (length l) - 1 <= i <= Z.of_nat (length l))%Z -> ev v = Ok w ->
    exists s', a_put ev prim expr lz i v s = (Ok VNone, s') /\ Rep s' (py_insert i w l).
  Proof.
    intros hr hi hv. destruct (rep_len _ _ hr) as [hl1 hl2]. destruct hr as [h1 h2]. unfold a_put.
    assert (g1 : Forall2 (fun d w => ev d = Ok w) (py_insert i v (a_data s)) (py_insert i w l)) by (apply F2_insert; assumption).
    assert (g2 : Forall2 (fun v w => v = VNone \/ v = w) (py_insert i VNone (a_val s)) (py_insert i w l))
      by (apply F2_insert; [assumption | left; reflexivity]).
    destruct lz; [eexists; split; [reflexivity | split; assumption]|].
    destruct (py_pos_cases (S (length l)) i) as [(p & hp & hlt) | hout]; [|apply py_pos_out in hout; unfold OutOfRange in hout; lia].
    destruct (F2_nth _ _ _ p g1) as [(d & y & hd & hy & hdy) | [_ hn]];
      [|apply nth_error_None in hn; rewrite len_insert in hn; lia].
    destruct (evaluate_ok {| a_data := py_insert i v (a_data s); a_val := py_insert i VNone (a_val s) |} (py_insert i w l) i p y)
      as (d' & he & hd'); cbn [a_data a_val] in *.
    - rewrite !len_insert. congruence.
    - rewrite len_insert, hl1. exact hp.
    - eauto.
    - rewrite he. eexists. split; [reflexivity|]. split; cbn; [exact (hd' g1)|].
      rewrite <- (put_same _ p y hy). apply F2_put; [exact g2 | right; reflexivity].
  Qed.

  Lemma insert_rep s l i v w lz : Rep s l -> (- Z.of_nat (length l) - 1 <= i <= Z.of_nat (length l))%Z -> ev v = Ok w ->
    (unique = true -> iterates v = true) ->
    exists s', a_insert ev prim expr lz unique i v s = (Ok VNone, s') /\ Rep s' (py_insert i w l).
  Proof.
    intros hr hi hv hu. destruct (put_rep s l i v w lz hr hi hv) as (s' & h & hr'). unfold a_insert. rewrite h. exists s'.
    split; [|exact hr']. unfold check_value. destruct unique; [rewrite (hu eq_refl)|]; reflexivity.
  Qed.

  Lemma drop_rep s l i p : Rep s l -> py_pos (length l) i = Ok p ->
    exists s', a_drop i s = (Ok VNone, s') /\ Rep s' (firstn p l ++ skipn (S p) l).
  Proof.
    intros hr hp. destruct (rep_len _ _ hr) as [hl1 hl2]. destruct hr as [h1 h2].
    unfold a_drop, py_del. rewrite hl1, hl2, hp. cbn [rbind]. eexists. split; [reflexivity|]. split; cbn; apply F2_drop; assumption.
  Qed.
  Lemma del_out s l i : Rep s l -> py_pos (length l) i = Err IndexError -> a_del ev prim expr unique i s = (Err IndexError, s).
  Proof. intros hr hp. destruct (rep_len _ _ hr) as [hl1 hl2]. unfold a_del, a_drop, py_del. rewrite hl1, hp. reflexivity. Qed.

  Lemma get_nth s l p x : Rep s l -> nth_error l p = Some x ->
    exists s', a_get ev prim expr (Z.of_nat p) s = (Ok x, s') /\ Rep s' l.
  Proof.
    intros hr hx. destruct (get_rep s l (Z.of_nat p) hr) as (s' & h & hr'). exists s'. split; [|exact hr']. rewrite h. f_equal.
    unfold py_get. rewrite py_pos_nat by (apply nth_error_Some; congruence). cbn. rewrite hx. reflexivity.
  Qed.

  Lemma iter_from_rep n : forall i s l, Rep s l -> i + n = length l ->
    exists s', iter_from ev prim expr n i s = (Ok (skipn i l), s') /\ Rep s' l.
  Proof.
    induction n as [|n IH]; intros i s l hr hn; cbn [iter_from].
    - exists s. rewrite skipn_all2 by lia. split; [reflexivity | exact hr].
    - destruct (nth_error l i) as [x|] eqn:hx; [|apply nth_error_None in hx; lia].
      destruct (get_nth s l i x hr hx) as (s1 & h1 & hr1). rewrite h1.
      destruct (IH (S i) s1 l hr1 ltac:(lia)) as (s2 & h2 & hr2). rewrite h2. exists s2. split; [|exact hr2]. rewrite (skipn_nth l i x hx). reflexivity.
  Qed.
  Lemma iter_rep s l : Rep s l -> exists s', a_iter ev prim expr s = (Ok l, s') /\ Rep s' l.
  Proof.
    intros hr. unfold a_iter. destruct (rep_len _ _ hr) as [_ hl]. rewrite hl. exact (iter_from_rep (length l) 0 s l hr eq_refl).
  Qed.

  Lemma hash_from_rep n : unique = true -> forall i s l, Rep s l -> i + n = length l ->
    exists s', hash_from ev prim expr n i s = (Ok VNone, s') /\ Rep s' l.
  Proof.
    intros hu. induction n as [|n IH]; intros i s l hr hn; cbn [hash_from]; [eauto|].
    destruct (nth_error l i) as [x|] eqn:hx; [|apply nth_error_None in hx; lia].
    destruct (get_nth s l i x hr hx) as (s1 & h1 & hr1). rewrite h1.
    destruct hr as [hd _]. destruct (F2_nth _ _ _ i hd) as [(d & w & _ & hw & hdw) | [_ hno]]; [|congruence].
    rewrite hx in hw. injection hw as <-. rewrite (hashes hu _ _ hdw). apply (IH (S i) s1 l hr1). lia.
  Qed.
  Lemma check_rep s l : Rep s l -> exists s', check_self ev prim expr unique s = (Ok VNone, s') /\ Rep s' l.
  Proof.
    intros hr. unfold check_self.
    assert (hu : unique = true \/ unique = false) by (destruct unique; auto). destruct hu as [hu | hu]; rewrite hu; [|eauto].
    destruct (rep_len _ _ hr) as [_ hl]. rewrite hl. exact (hash_from_rep (length l) hu 0 s l hr eq_refl).
  Qed.
  Lemma del_rep s l i p : Rep s l -> py_pos (length l) i = Ok p ->
    exists s', a_del ev prim expr unique i s = (Ok VNone, s') /\ Rep s' (firstn p l ++ skipn (S p) l).
  Proof.
    intros hr hp. destruct (drop_rep s l i p hr hp) as (s1 & h1 & hr1). unfold a_del. rewrite h1. exact (check_rep s1 _ hr1).
  Qed.

  Lemma index_from_rep n : forall i s l x, Rep s l -> i + n = length l -> (forall z, In z (firstn i l) -> ~ PyEq z x) ->
    exists r s', index_from ev prim expr n i x s = (r, s') /\ Rep s' l /\
      ((exists l1 y l2, l = l1 ++ y :: l2 /\ FirstEqual x l1 y /\ r = Ok (length l1)) \/ ((forall z, In z l -> ~ PyEq z x) /\ r = Err ValueError)).
  Proof.
    induction n as [|n IH]; intros i s l x hr hn hf; cbn [index_from].
    - exists (Err ValueError), s. split; [reflexivity|]. split; [exact hr|]. right. rewrite firstn_all2 in hf by lia. auto.
    - destruct (nth_error l i) as [y|] eqn:hy; [|apply nth_error_None in hy; lia].
      destruct (get_nth s l i y hr hy) as (s1 & h1 & hr1). rewrite h1.
      pose proof hy as hs. apply nth_error_split in hs. destruct hs as (l1 & l2 & hl & hi).
      assert (hf1 : firstn i l = l1) by (rewrite hl, firstn_app, <- hi, Nat.sub_diag, firstn_all, firstn_O, app_nil_r; reflexivity).
      rewrite hf1 in hf.
      destruct (val_eq y x) eqn:he.
      + apply val_eq_spec in he. exists (Ok i), s1. split; [reflexivity|]. split; [exact hr1|]. left. exists l1, y, l2. rewrite hi. unfold FirstEqual. auto.
      + apply val_eq_false in he. apply IH; [exact hr1 | lia |]. replace (firstn (S i) l) with (l1 ++ [y]).
        * intros z hz. apply in_app_iff in hz. destruct hz as [hz | [<- | []]]; [exact (hf z hz) | exact he].
        * rewrite hl. replace (S i) with (length (l1 ++ [y])) by (rewrite app_length; cbn; lia).
          change (y :: l2) with ([y] ++ l2). rewrite app_assoc, firstn_app, Nat.sub_diag, firstn_all, firstn_O, app_nil_r. reflexivity.
  Qed.
  Lemma index_rep s l x : Rep s l -> exists r s', a_index ev prim expr x s = (r, s') /\ Rep s' l /\
      ((exists l1 y l2, l = l1 ++ y :: l2 /\ FirstEqual x l1 y /\ r = Ok (length l1)) \/ ((forall z, In z l -> ~ PyEq z x) /\ r = Err ValueError)).
  Proof.
    intros hr. unfold a_index. destruct (rep_len _ _ hr) as [_ hl]. rewrite hl.
    apply index_from_rep; [exact hr | reflexivity | intros z []].
  Qed.

  Lemma insert_end {A} (l : list A) x : py_insert (Z.of_nat (length l)) x l = l ++ [x].
  Proof.
    unfold py_insert, py_clamp. destruct (Z.ltb_spec (Z.of_nat (length l)) 0); [lia|].
    rewrite Nat2Z.id, Nat.min_id, firstn_all, skipn_all. reflexivity.
  Qed.
  Lemma append_rep s l v w lz : Rep s l -> ev v = Ok w -> (unique = true -> iterates v = true) ->
    exists s', a_append ev prim expr lz unique v s = (Ok VNone, s') /\ Rep s' (l ++ [w]).
  Proof.
    intros hr hv hu. destruct (rep_len _ _ hr) as [hl _]. unfold a_append, a_len. rewrite hl.
    destruct (insert_rep s l (Z.of_nat (length l)) v w lz hr ltac:(lia) hv hu) as (s' & h & hr'). rewrite insert_end in hr'. eauto.
  Qed.
  Lemma extend_rep vs : forall ws s l lz, Rep s l -> Forall2 (fun v w => ev v = Ok w) vs ws ->
    (unique = true -> Forall (fun v => iterates v = true) vs) ->
    exists s', a_extend ev prim expr lz unique vs s = (Ok VNone, s') /\ Rep s' (l ++ ws).
  Proof.
    induction vs as [|v vs IH]; intros ws s l lz hr hf hu; inversion hf as [|? w ? ws' hv hf']; subst; cbn [a_extend].
    - exists s. rewrite app_nil_r. auto.
    - destruct (append_rep s l v w lz hr hv) as (s1 & h1 & hr1); [intros h; exact (Forall_inv (hu h))|]. rewrite h1.
      destruct (IH ws' s1 (l ++ [w]) lz hr1 hf' ltac:(intros h; exact (Forall_inv_tail (hu h)))) as (s2 & h2 & hr2). rewrite h2. exists s2. rewrite <- app_assoc in hr2. auto.
  Qed.

  Lemma eq_from_rep other : forall i s l, Rep s l -> i + length other = length l ->
    exists b s', eq_from ev prim expr i other s = (Ok b, s') /\ Rep s' l /\ (b = true <-> Forall2 PyEq (skipn i l) other).
  Proof.
    induction other as [|v other IH]; intros i s l hr hn; cbn [eq_from length] in *.
    - exists true, s. rewrite skipn_all2 by lia. split; [reflexivity|]. split; [exact hr | split; constructor].
    - destruct (nth_error l i) as [x|] eqn:hx; [|apply nth_error_None in hx; lia].
      destruct (get_nth s l i x hr hx) as (s1 & h1 & hr1). rewrite h1.
      assert (hs : skipn i l = x :: skipn (S i) l).
      { exact (skipn_nth l i x hx). }
      rewrite hs. destruct (val_eq x v) eqn:he; [apply val_eq_spec in he | apply val_eq_false in he].
      + destruct (IH (S i) s1 l hr1 ltac:(lia)) as (b & s2 & h2 & hr2 & hb). exists b, s2. split; [exact h2|]. split; [exact hr2|].
        rewrite hb. split; [intros h; constructor; assumption | intros h; inversion h; assumption].
      + exists false, s1. split; [reflexivity|]. split; [exact hr1|]. split; [discriminate | intros h; inversion h; contradiction].
  Qed.
  Lemma eq_rep s l other : Rep s l -> exists b s', a_eq ev prim expr other s = (Ok b, s') /\ Rep s' l /\ (b = true <-> Forall2 PyEq l other).
  Proof.
    intros hr. unfold a_eq, a_len. destruct (rep_len _ _ hr) as [hl _]. rewrite hl. destruct (Nat.eqb_spec (length l) (length other)).
    - apply (eq_from_rep other 0 s l hr). lia.
    - exists false, s. split; [reflexivity|]. split; [exact hr|]. split; [discriminate | intros h; apply F2_len in h; congruence].
  Qed.

  (** * Reversal *)
  Lemma rep_stable s l : Rep s l -> Forall (fun w => ev w = Ok w) l.
  Proof. intros [h _]. induction h; constructor; eauto. Qed.

  Lemma swap_rep s l l1 a m b l2 : Rep s l -> l = l1 ++ a :: m ++ b :: l2 ->
    exists s', a_swap ev prim expr false (length l1) (length l1 + S (length m)) s = (Ok VNone, s') /\ Rep s' (l1 ++ b :: m ++ a :: l2).
  Proof.
    intros hr hl. unfold a_swap. pose proof (rep_stable _ _ hr) as hst.
    assert (ha : nth_error l (length l1) = Some a) by (rewrite hl; apply nth_mid).
    assert (hl' : forall x y, l1 ++ x :: m ++ y :: l2 = (l1 ++ x :: m) ++ y :: l2) by (intros; rewrite <- app_assoc; reflexivity).
    assert (hlen : forall x, length (l1 ++ x :: m) = length l1 + S (length m)) by (intros; rewrite app_length; reflexivity).
    assert (hb : nth_error l (length l1 + S (length m)) = Some b) by (rewrite hl, hl', <- (hlen a); apply nth_mid).
    destruct (get_nth s l _ b hr hb) as (s1 & h1 & hr1). rewrite h1.
    destruct (get_nth s1 l _ a hr1 ha) as (s2 & h2 & hr2). rewrite h2.
    assert (hea : ev a = Ok a) by (exact (proj1 (Forall_forall _ _) hst a (nth_error_In _ _ ha))).
    assert (heb : ev b = Ok b) by (exact (proj1 (Forall_forall _ _) hst b (nth_error_In _ _ hb))).
    destruct (set_rep s2 l (Z.of_nat (length l1)) b b (length l1) hr2) as (s3 & h3 & hr3);
      [apply py_pos_nat, nth_error_Some; congruence | exact heb |].
    rewrite h3. rewrite hl, put_app in hr3.
    destruct (set_rep s3 _ (Z.of_nat (length l1 + S (length m))) a a (length l1 + S (length m)) hr3) as (s4 & h4 & hr4).
    - apply py_pos_nat. rewrite hl', app_length, hlen. cbn. lia.
    - exact hea.
    - exists s4. split; [exact h4|]. rewrite hl', <- (hlen b), put_app in hr4. rewrite hl'. exact hr4.
  Qed.

  Lemma split_ends {A} (m : list A) : length m >= 2 -> exists a m' b, m = a :: m' ++ [b].
  Proof.
    destruct m as [|a m]; cbn; [lia|]. intros h. destruct (@exists_last _ m) as (m' & b & ->); [destruct m; cbn in h; [lia | discriminate]|].
    eauto.
  Qed.
  (** the middle part [m] is still to be reversed, between the parts [l1] and [l2] of the same length already exchanged *)
  Lemma reverse_from_rep n : forall m l1 l2 s, Rep s (l1 ++ m ++ l2) -> length l1 = length l2 -> n = Nat.div2 (length m) ->
    exists s', reverse_from ev prim expr false n (length l1) (length (l1 ++ m ++ l2)) s = (Ok VNone, s') /\ Rep s' (l1 ++ rev m ++ l2).
  Proof.
    induction n as [|n IH]; intros m l1 l2 s hr hl hn; cbn [reverse_from].
    - exists s. split; [reflexivity|]. destruct m as [|a [|b m]]; try exact hr. cbn in hn. discriminate.
    - destruct (split_ends m) as (a & m' & b & ->).
      { destruct m as [|a [|b m]]; cbn in hn |- *; [discriminate..|lia]. }
      assert (he : l1 ++ (a :: m' ++ [b]) ++ l2 = l1 ++ a :: m' ++ b :: l2) by (cbn; rewrite <- app_assoc; reflexivity).
      assert (hlen : length (l1 ++ (a :: m' ++ [b]) ++ l2) = length ((l1 ++ [b]) ++ m' ++ (a :: l2)))
        by (rewrite !app_length; cbn; rewrite !app_length; cbn; lia).
      replace (length (l1 ++ (a :: m' ++ [b]) ++ l2) - length l1 - 1) with (length l1 + S (length m'))
        by (rewrite !app_length; cbn; rewrite !app_length; cbn; lia).
      destruct (swap_rep s _ l1 a m' b l2 hr he) as (s1 & h1 & hr1). rewrite h1.
      replace (l1 ++ b :: m' ++ a :: l2) with ((l1 ++ [b]) ++ m' ++ (a :: l2)) in hr1 by (rewrite <- app_assoc; reflexivity).
      destruct (IH m' (l1 ++ [b]) (a :: l2) s1 hr1) as (s2 & h2 & hr2).
      + rewrite app_length. cbn. lia.
      + cbn in hn. rewrite app_length in hn. cbn in hn. rewrite Nat.add_1_r in hn. cbn in hn. lia.
      + exists s2. rewrite hlen. replace (S (length l1)) with (length (l1 ++ [b])) by (rewrite app_length; cbn; lia).
        split; [exact h2|]. cbn. rewrite rev_app_distr. cbn. rewrite <- !app_assoc in *. exact hr2.
  Qed.
  Lemma reverse_rep s l : Rep s l -> exists s', a_reverse ev prim expr false s = (Ok VNone, s') /\ Rep s' (rev l).
  Proof.
    intros hr. unfold a_reverse, a_len. destruct (rep_len _ _ hr) as [hl _]. rewrite hl.
    destruct (reverse_from_rep (Nat.div2 (length l)) l [] [] s) as (s' & h & hr'); cbn; [rewrite app_nil_r; exact hr | reflexivity | reflexivity |].
    cbn in h. rewrite !app_nil_r in *. eauto.
  Qed.

  (** * One step *)
  Lemma refers_pos l1 (x : pyval) l2 i : Refers (length (l1 ++ x :: l2)) i (length l1) -> py_pos (length (l1 ++ x :: l2)) i = Ok (length l1).
  Proof. apply py_pos_refers. Qed.

  Lemma step_rep lz o s l r l' : (lz = true -> assigns o = false) -> (unique = true -> Forall (fun v => iterates v = true) (inserted o)) ->
    Rep s l -> LStep ev o l r l' ->
    exists s', a_step ev prim expr lz unique o s = (r, s') /\ Rep s' l'.
  Proof.
    intros hz hu hr hs. destruct hs as [i l1 x l2 hi | i l hi | i v w l1 x l2 hi hv | i v l hi | i v w l1 l2 hi hv | i l1 x l2 hi | i l hi
      | l | l | x l1 y l2 hx | x l hx | v w l hv | vs ws l hf | i l1 x l2 hi | i l hi | x l1 y l2 hx | x l hx | l | other l heq | other l hne]; cbn [a_step].
    - destruct (get_rep s _ i hr) as (s' & h & hr'). exists s'. split; [|exact hr']. rewrite h. f_equal. unfold py_get.
      rewrite (refers_pos _ _ _ _ hi). cbn. rewrite nth_mid. reflexivity.
    - destruct (get_rep s _ i hr) as (s' & h & hr'). exists s'. split; [|exact hr']. rewrite h. f_equal. unfold py_get.
      apply py_pos_out in hi. rewrite hi. reflexivity.
    - destruct lz; [specialize (hz eq_refl); discriminate|].
      destruct (set_rep s _ i v w (length l1) hr (refers_pos _ _ _ _ hi) hv) as (s' & h & hr'). rewrite put_app in hr'. eauto.
    - exists s. split; [|exact hr]. apply (set_out s l); [exact hr | apply py_pos_out, hi].
    - apply inserts_clamp in hi. destruct hi as (hc & hle & hrange).
      destruct (insert_rep s _ i v w lz hr hrange hv ltac:(intros h; exact (Forall_inv (hu h)))) as (s' & h & hr'). exists s'. split; [exact h|].
      unfold py_insert in hr'. rewrite hc in hr'.
      rewrite firstn_app, skipn_app, Nat.sub_diag, firstn_all, skipn_all, firstn_O, app_nil_r in hr'. exact hr'.
    - destruct (del_rep s _ i (length l1) hr (refers_pos _ _ _ _ hi)) as (s' & h & hr'). rewrite drop_app in hr'. eauto.
    - exists s. split; [|exact hr]. apply (del_out s l); [exact hr | apply py_pos_out, hi].
    - exists s. split; [|exact hr]. unfold a_len. destruct (rep_len _ _ hr) as [-> _]. reflexivity.
    - destruct (iter_rep s l hr) as (s' & h & hr'). exists s'. split; [|exact hr']. rewrite h. reflexivity.
    - destruct (index_rep s _ x hr) as (r & s' & h & hr' & hc). exists s'. split; [|exact hr']. rewrite h. unfold in_int. cbn [fst snd].
      f_equal. destruct hc as [(m1 & z & m2 & he & hm & ->) | [hno _]]; [|exfalso; apply (hno y); [apply in_or_app; right; left; reflexivity | apply hx]].
      cbn. rewrite (first_unique x l1 y l2 m1 z m2 he hx hm). reflexivity.
    - destruct (index_rep s _ x hr) as (r & s' & h & hr' & hc). exists s'. split; [|exact hr']. rewrite h. unfold in_int. cbn [fst snd].
      destruct hc as [(m1 & z & m2 & he & hm & ->) | [_ ->]]; [|reflexivity]. subst l. exfalso. apply (hx z); [apply in_or_app; right; left; reflexivity | apply hm].
    - apply (append_rep s l v w lz hr hv ltac:(intros h; exact (Forall_inv (hu h)))).
    - apply (extend_rep vs ws s l lz hr hf hu).
    - unfold a_pop. destruct (get_rep s _ i hr) as (s1 & h1 & hr1). rewrite h1. unfold py_get. rewrite (refers_pos _ _ _ _ hi). cbn [rbind].
      rewrite nth_mid. destruct (del_rep s1 _ i (length l1) hr1 (refers_pos _ _ _ _ hi)) as (s2 & h2 & hr2). rewrite h2.
      rewrite drop_app in hr2. eauto.
    - unfold a_pop. destruct (get_rep s _ i hr) as (s1 & h1 & hr1). rewrite h1. unfold py_get. apply py_pos_out in hi. rewrite hi. cbn. eauto.
    - unfold a_remove. destruct (index_rep s _ x hr) as (r & s1 & h1 & hr1 & hc). rewrite h1.
      destruct hc as [(m1 & z & m2 & he & hm & ->) | [hno _]]; [|exfalso; apply (hno y); [apply in_or_app; right; left; reflexivity | apply hx]].
      assert (hm1 : length m1 = length l1).
      { exact (first_unique x l1 y l2 m1 z m2 he hx hm). }
      rewrite hm1. destruct (del_rep s1 _ (Z.of_nat (length l1)) (length l1) hr1) as (s2 & h2 & hr2).
      { apply py_pos_nat. rewrite app_length. cbn. lia. }
      rewrite drop_app in hr2. eauto.
    - unfold a_remove. destruct (index_rep s _ x hr) as (r & s1 & h1 & hr1 & hc). rewrite h1.
      destruct hc as [(m1 & z & m2 & he & hm & ->) | [_ ->]]; [|eauto]. subst l. exfalso. apply (hx z); [apply in_or_app; right; left; reflexivity | apply hm].
    - destruct lz; [specialize (hz eq_refl); discriminate|]. apply (reverse_rep s l hr).
    - destruct (eq_rep s l other hr) as (b & s' & h & hr' & hb). exists s'. split; [|exact hr']. rewrite h. unfold in_bool. cbn.
      rewrite (proj2 hb heq). reflexivity.
    - destruct (eq_rep s l other hr) as (b & s' & h & hr' & hb). exists s'. split; [|exact hr']. rewrite h. unfold in_bool. cbn.
      destruct b; [destruct hne; apply hb; reflexivity | reflexivity].
  Qed.
  Lemma run_rep lz ops l rs l' : LRun ev ops l rs l' -> (lz = true -> Forall (fun o => assigns o = false) ops) ->
    (unique = true -> Forall (fun o => Forall (fun v => iterates v = true) (inserted o)) ops) -> forall s, Rep s l ->
    exists s', a_run ev prim expr lz unique ops s = (rs, s') /\ Rep s' l'.
  Proof.
    induction 1 as [l | o ops l r l1 rs l2 hs hrun IH]; intros hz hu s hr; cbn [a_run]; [eauto|].
    destruct (step_rep lz o s l r l1) as (s1 & h1 & hr1);
      [intros hlz; specialize (hz hlz); inversion hz; assumption | intros h; exact (Forall_inv (hu h)) | exact hr | exact hs |].
    rewrite h1. destruct (IH ltac:(intros hlz; specialize (hz hlz); inversion hz; assumption) ltac:(intros h; exact (Forall_inv_tail (hu h))) s1 hr1) as (s2 & h2 & hr2). rewrite h2. eauto.
  Qed.
  Lemma create_rep lz raw l : Forall2 (fun d w => ev d = Ok w) raw l -> exists s, a_create ev prim expr lz unique raw = Ok s /\ Rep s l.
  Proof.
    intros h. pose proof (rep_fresh _ _ h) as hr. unfold a_create. destruct lz.
    - destruct (check_rep _ _ hr) as (s' & -> & hr'). eauto.
    - destruct (iter_rep _ _ hr) as (s' & -> & hr'). destruct (check_rep _ _ hr') as (s2 & -> & hr2). eauto.
  Qed.
End Refine.
