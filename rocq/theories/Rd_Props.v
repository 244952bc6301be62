(** Properties of reducing collections (C103). The documentation promises that empty elements are deleted and that lists of one
    item become that item. *)
From Verif Require Import Walk_Spec Walk_Props Rd_Model.
Local Open Scope list_scope.

(** A value that is no collection. *)
Definition Plain (v : jv) : Prop := (exists s, v = JStr s) \/ (exists n, v = JAtom n).
(** A plain value that is empty: None, False, zero, the empty text. *)
Definition Blank (v : jv) : Prop := v = JStr [] \/ v = JAtom 0.

Lemma dget_key (k : str) (v : jv) : dget k [(k, v)] = Some v. Proof. cbn. destruct (eq_dec k k); [reflexivity|congruence]. Qed.
Lemma dset_key (k : str) (v w : jv) : dset k w [(k, v)] = [(k, w)]. Proof. cbn. destruct (eq_dec k k); [reflexivity|congruence]. Qed.
Lemma ddel_key (k : str) (v : jv) : ddel k [(k, v)] = []. Proof. cbn. destruct (eq_dec k k); [reflexivity|congruence]. Qed.
Lemma ddel_mid (a b : list (str * jv)) k v : ~ In k (map fst a) -> ~ In k (map fst b) -> ddel k (a ++ (k, v) :: b) = a ++ b.
Proof.
  induction a as [|[j w] a IH]; intros na nb; cbn [app ddel].
  - destruct (eq_dec k k); [apply ddel_notin; exact nb|congruence].
  - destruct (eq_dec k j) as [->|_]; [destruct na; left; reflexivity|]. f_equal. apply IH; [|exact nb]. intros i. apply na. right. exact i.
Qed.
Lemma plain_truthy v : Plain v -> truthy v = false <-> Blank v.
Proof.
  unfold Blank. intros [[[|x s] ->]|[[|n] ->]]; cbn; split; intros h; try discriminate; try reflexivity; auto; destruct h; discriminate.
Qed.
Lemma plain_short v : Plain v -> shortened v = v. Proof. intros [[s ->]|[n ->]]; reflexivity. Qed.

(** ** what holds: a dictionary of plain values loses exactly the blank ones, and keeps the order of the others *)
Inductive Kept : list (str * jv) -> list (str * jv) -> Prop :=
| kept_nil : Kept [] []
| kept_blank k v d d' : Blank v -> Kept d d' -> Kept ((k, v) :: d) d'
| kept_value k v d d' : ~ Blank v -> Kept d d' -> Kept ((k, v) :: d) ((k, v) :: d').
Theorem reduce_plain_dictionary fuel d : 0 < fuel -> NoDup (map fst d) -> (forall k v, In (k, v) d -> Plain v) ->
  exists d', reduce_coll fuel (JMap d) = Ok (JMap d') /\ Kept d d'.
Proof.
  intros hf nd hp. destruct fuel as [|f]; [destruct (Nat.nlt_0_r _ hf)|]. unfold reduce_coll. cbn [walk].
  set (act := fun c p => do c1 <- do_reduce 0 c p; member _ c1 p).
  assert (run : forall todo done, NoDup (map fst (done ++ todo)) -> (forall k v, In (k, v) todo -> Plain v) ->
    exists d', over_keys act (map fst todo) (JMap (done ++ todo)) = Ok (JMap (done ++ d')) /\ Kept todo d').
  { induction todo as [|[k v] todo IH]; intros done nd' hp'; [exists []; split; [reflexivity|constructor]|].
    assert (nk : ~ In k (map fst (done ++ todo))) by (rewrite map_app in *; cbn in nd'; apply NoDup_remove_2 in nd'; exact nd').
    assert (n1 : ~ In k (map fst done)) by (intros i; apply nk; rewrite map_app; apply in_or_app; left; exact i).
    assert (n2 : ~ In k (map fst todo)) by (intros i; apply nk; rewrite map_app; apply in_or_app; right; exact i).
    assert (pv := hp' k v (or_introl eq_refl)).
    cbn [map fst over_keys]. unfold act at 1, do_reduce. cbn [jget]. rewrite dget_mid by exact n1. rewrite plain_short by exact pv.
    destruct (truthy v) eqn:t; cbn [rbind jput jdel].
    - rewrite dset_mid by exact n1. unfold member. cbn [jget]. rewrite dget_mid by exact n1.
      destruct (IH (done ++ [(k, v)])) as (d' & e & kk); [rewrite <- app_assoc; exact nd'|intros k0 v0 i; apply (hp' k0); right; exact i|].
      exists ((k, v) :: d'). rewrite <- !app_assoc in e. cbn [app] in e. split; [destruct pv as [[s ->]|[n ->]]; exact e|].
      constructor; [|exact kk]. intros b. apply plain_truthy in b; [congruence|exact pv].
    - rewrite ddel_mid by assumption. unfold member. cbn [jget].
      assert (dget k (done ++ todo) = None) as -> by (apply dget_None; exact nk). cbn [rbind].
      destruct (IH done) as (d' & e & kk); [rewrite map_app in *; cbn in nd'; apply NoDup_remove_1 in nd'; exact nd'|intros k0 v0 i; apply (hp' k0); right; exact i|].
      exists d'. split; [exact e|]. constructor; [|exact kk]. apply plain_truthy; assumption. }
  exact (run d [] nd hp).
Qed.

(** ** no collection in which each key occurs once makes it raise *)
Definition Fine (r : res jv) : Prop := (exists c, r = Ok c /\ Wf c) \/ r = Err OutOfFuel.
Lemma shortened_wf v : Wf v -> Wf (shortened v).
Proof.
  intros w. destruct v as [s|n|d|l]; cbn [shortened]; try exact w.
  - destruct (existsb _ d); [exact w|]. destruct d; constructor.
  - destruct l as [|x [|y l]]; [constructor| |exact w]. inversion w as [| | |? h]. apply h. left. reflexivity.
Qed.
Lemma in_lput {A} (l : list A) i x y : In y (lput l i x) -> y = x \/ In y l.
Proof.
  revert i. induction l as [|z l IH]; intros [|i]; cbn [lput In]; try tauto.
  - intros [<-|h]; auto.
  - intros [<-|h]; [auto|]. destruct (IH i h); auto.
Qed.
Lemma in_cut {A} (l : list A) i y : In y (firstn i l ++ skipn (S i) l) -> In y l.
Proof.
  intros h. apply in_app_or in h. destruct h as [h|h].
  - rewrite <- (firstn_skipn i l). apply in_or_app. left. exact h.
  - rewrite <- (firstn_skipn (S i) l). apply in_or_app. right. exact h.
Qed.
Lemma member_fine rec c p : (forall v, Wf v -> Fine (rec v)) -> (forall v, jget c p = Some v -> Wf v) ->
  member rec c p = Ok c \/ (exists v, member rec c p = Ok (jput c p v) /\ Wf v /\ jget c p <> None) \/ member rec c p = Err OutOfFuel.
Proof.
  intros hr hw. unfold member. destruct (jget c p) as [[s|n|d|l]|] eqn:e; try (left; reflexivity); right.
  - destruct (hr (JMap d) (hw _ eq_refl)) as [(v & -> & w)| ->]; [left; exists v|right]; repeat split; auto; discriminate.
  - destruct (hr (JList l) (hw _ eq_refl)) as [(v & -> & w)| ->]; [left; exists v|right]; repeat split; auto; discriminate.
Qed.
Lemma keys_fine rec lv : (forall v, Wf v -> Fine (rec v)) -> forall todo done, Wf (JMap (done ++ todo)) ->
  Fine (over_keys (fun c p => do c1 <- do_reduce lv c p; member rec c1 p) (map fst todo) (JMap (done ++ todo))).
Proof.
  intros hr. induction todo as [|[k v] todo IH]; intros done w; [left; eexists; split; [reflexivity|exact w]|].
  inversion w as [| |? nd hm|]; subst.
  assert (nk : ~ In k (map fst (done ++ todo))) by (rewrite map_app in *; cbn in nd; apply NoDup_remove_2 in nd; exact nd).
  assert (n1 : ~ In k (map fst done)) by (intros i; apply nk; rewrite map_app; apply in_or_app; left; exact i).
  assert (n2 : ~ In k (map fst todo)) by (intros i; apply nk; rewrite map_app; apply in_or_app; right; exact i).
  assert (wv : Wf v) by (apply (hm k); apply in_or_app; right; left; reflexivity).
  assert (re : forall x, Wf x -> Wf (JMap ((done ++ [(k, x)]) ++ todo))).
  { intros x wx. rewrite <- app_assoc. cbn [app]. constructor; [rewrite map_app in *; exact nd|]. intros j y i. apply in_app_or in i. destruct i as [i|[i|i]].
    - apply (hm j). apply in_or_app. left. exact i.
    - injection i as <- <-. exact wx.
    - apply (hm j). apply in_or_app. right. right. exact i. }
  cbn [map fst over_keys]. unfold do_reduce at 1. cbn [jget]. rewrite dget_mid by exact n1. destruct (truthy (shortened v)); cbn [rbind jput jdel].
  - rewrite dset_mid by exact n1. assert (ws := shortened_wf v wv).
    destruct (member_fine rec (JMap (done ++ (k, shortened v) :: todo)) (PKey k) hr) as [->|[(x & -> & wx & _)| ->]].
    + cbn [jget]. rewrite dget_mid by exact n1. intros y h. injection h as <-. exact ws.
    + cbn [rbind]. assert (h := IH (done ++ [(k, shortened v)]) (re _ ws)). rewrite <- app_assoc in h. exact h.
    + cbn [rbind jput]. rewrite dset_mid by exact n1. assert (h := IH (done ++ [(k, x)]) (re _ wx)). rewrite <- app_assoc in h. exact h.
    + right. reflexivity.
  - rewrite ddel_mid by assumption. unfold member at 1. cbn [jget]. assert (dget k (done ++ todo) = None) as -> by (apply dget_None; exact nk). cbn [rbind].
    apply IH. constructor; [rewrite map_app in *; cbn in nd; apply NoDup_remove_1 in nd; exact nd|]. intros j y i. apply (hm j). apply in_app_or in i. apply in_or_app. destruct i as [i|i]; [left|right; right]; exact i.
Qed.
Lemma items_fine rec lv : (forall v, Wf v -> Fine (rec v)) -> forall n i l, Wf (JList l) ->
  Fine (over_items (fun c p => do c1 <- do_reduce lv c p; member rec c1 p) n i (JList l)).
Proof.
  intros hr. induction n as [|n IH]; intros i l w; [right; reflexivity|]. cbn [over_items]. destruct (jget (JList l) (PIdx i)) as [v|] eqn:e; [|left; eexists; split; [reflexivity|exact w]].
  inversion w as [| | |? hm]; subst. assert (wv : Wf v) by (apply hm; cbn [jget] in e; exact (nth_error_In _ _ e)).
  unfold do_reduce at 1. rewrite e. cbn [rbind].
  assert (wl : exists l1, (if truthy (shortened v) then jput (JList l) (PIdx i) (shortened v) else jdel (JList l) (PIdx i)) = JList l1 /\ Wf (JList l1)).
  { destruct (truthy (shortened v)); cbn [jput jdel]; eexists; (split; [reflexivity|]); constructor; intros y h.
    - apply in_lput in h. destruct h as [->|h]; [apply shortened_wf; exact wv|apply hm; exact h].
    - apply hm. exact (in_cut _ _ _ h). }
  destruct wl as (l1 & -> & wl). inversion wl as [| | |? hm1]; subst. destruct (member_fine rec (JList l1) (PIdx i) hr) as [->|[(x & -> & wx & _)| ->]].
  - intros y h. apply hm1. cbn [jget] in h. exact (nth_error_In _ _ h).
  - cbn [rbind]. apply IH. exact wl.
  - cbn [rbind jput]. apply IH. constructor. intros y h. apply in_lput in h. destruct h as [->|h]; [exact wx|apply hm1; exact h].
  - right. reflexivity.
Qed.
(** the only failure is the one the model adds, of its bound on steps; what is left has each key once again *)
Theorem reduce_raises_nothing fuel c : Wf c -> reduce_coll fuel c <> Err OutOfFuel -> exists c', reduce_coll fuel c = Ok c' /\ Wf c'.
Proof.
  intros w n. assert (forall fuel lv c, Wf c -> Fine (walk do_reduce fuel lv c)) as h.
  { clear. induction fuel as [|f IH]; intros lv c w; [right; reflexivity|]. cbn [walk]. destruct c as [s|m|d|l].
    - left. eexists. split; [reflexivity|exact w].
    - left. eexists. split; [reflexivity|exact w].
    - exact (keys_fine _ lv (IH (S lv)) d [] w).
    - exact (items_fine _ lv (IH (S lv)) f 0 l w). }
  destruct (h fuel 0 c w) as [r|r]; [exact r|]. destruct (n r).
Qed.
Print Assumptions reduce_raises_nothing.

(** ** what does not *)
(** one value under a key *)
Lemma reduce_one fuel lv k v : walk do_reduce (S fuel) lv (JMap [(k, v)]) =
  if truthy (shortened v) then match shortened v with
    | JMap d => do w <- walk do_reduce fuel (S lv) (JMap d); Ok (JMap [(k, w)])
    | JList l => do w <- walk do_reduce fuel (S lv) (JList l); Ok (JMap [(k, w)])
    | w => Ok (JMap [(k, w)])
    end else Ok (JMap []).
Proof.
  cbn [walk dkeys map fst over_keys]. unfold do_reduce at 1. cbn [jget]. rewrite dget_key.
  destruct (truthy (shortened v)); cbn [rbind jput jdel].
  - rewrite dset_key. unfold member. cbn [jget]. rewrite dget_key. destruct (shortened v) as [s|n|d|l]; cbn [rbind]; try reflexivity;
      (destruct (walk do_reduce fuel (S lv) _) as [w|e]; cbn [rbind jput]; [rewrite dset_key; reflexivity|reflexivity]).
  - rewrite ddel_key. reflexivity.
Qed.
(** one item of a list *)
Lemma reduce_item fuel lv v : truthy (shortened v) = true -> walk do_reduce (S (S (S fuel))) lv (JList [v]) =
  match shortened v with
    | JMap d => do w <- walk do_reduce (S (S fuel)) (S lv) (JMap d); Ok (JList [w])
    | JList l => do w <- walk do_reduce (S (S fuel)) (S lv) (JList l); Ok (JList [w])
    | w => Ok (JList [w])
    end.
Proof.
  intros t. remember (S (S fuel)) as f eqn:ef. cbn [walk].
  assert (forall act c, over_items act f 0 c = over_items act (S (S fuel)) 0 c) as E by (intros; rewrite ef; reflexivity). rewrite E. clear E ef.
  cbn [over_items jget nth_error]. unfold do_reduce at 1. cbn [jget nth_error]. rewrite t.
  cbn [rbind jput lput]. unfold member. cbn [jget nth_error]. destruct (shortened v) as [s|n|d|l]; cbn [rbind jget nth_error]; try reflexivity;
    (destruct (walk do_reduce f (S lv) _) as [w|e]; cbn [rbind jput lput jget nth_error]; reflexivity).
Qed.

(** lists of one item within each other: half of them stay *)
Fixpoint nested (n : nat) (x : jv) : jv := match n with 0 => x | S n' => JList [nested n' x] end.
Lemma nested_truthy n x : Plain x -> ~ Blank x -> truthy (nested n x) = true.
Proof. intros p b. destruct n; [|reflexivity]. cbn [nested]. destruct (truthy x) eqn:t; [reflexivity|]. destruct b. apply plain_truthy; assumption. Qed.
Lemma plain_true x : Plain x -> ~ Blank x -> truthy x = true.
Proof. exact (nested_truthy 0 x). Qed.
Lemma three n fuel : S (S n) < fuel -> exists f, fuel = S (S (S f)).
Proof.
  destruct fuel as [|[|[|f]]]; intros h; [inversion h|apply le_S_n in h; inversion h|apply le_S_n, le_S_n in h; inversion h|exists f; reflexivity].
Qed.
Lemma nested_items x : Plain x -> ~ Blank x -> forall n, (forall lv fuel, S (S n) < fuel -> walk do_reduce fuel lv (JList [nested n x]) = Ok (JList [nested (Nat.div2 n) x])) /\
  (forall lv fuel, S (S (S n)) < fuel -> walk do_reduce fuel lv (JList [nested (S n) x]) = Ok (JList [nested (Nat.div2 (S n)) x])).
Proof.
  intros px bx. assert (plain : forall fuel lv v, Plain v -> ~ Blank v -> shortened v = v -> walk do_reduce (S (S (S fuel))) lv (JList [v]) = Ok (JList [v])).
  { intros fuel lv v pv bv sv. rewrite reduce_item by (rewrite sv; exact (nested_truthy 0 v pv bv)). rewrite sv. destruct pv as [[s ->]|[m ->]]; reflexivity. }
  induction n as [|n [IH1 IH2]].
  - split; intros lv fuel h; destruct (three _ _ h) as [f ->].
    + cbn [nested Nat.div2]. apply plain; [exact px|exact bx|apply plain_short; exact px].
    + cbn [nested Nat.div2]. rewrite reduce_item by (cbn [shortened none_single]; exact (nested_truthy 0 x px bx)). cbn [shortened none_single]. destruct px as [[s ->]|[m ->]]; reflexivity.
  - split; [exact IH2|]. intros lv fuel' h; destruct (three _ _ h) as [fuel ->].
    cbn [nested Nat.div2]. rewrite reduce_item by (cbn [shortened none_single]; reflexivity). cbn [shortened none_single].
    rewrite IH1 by (apply Nat.succ_lt_mono in h; eapply Nat.lt_trans; [apply Nat.lt_succ_diag_r|exact h]). reflexivity.
Qed.
Theorem reduce_nested_lists_refuted fuel k n x : Plain x -> ~ Blank x -> S (S n) < fuel ->
  reduce_coll fuel (JMap [(k, nested n x)]) = Ok (JMap [(k, nested (Nat.div2 n) x)]).
Proof.
  intros px bx h. destruct fuel as [|fuel]; [destruct (Nat.nlt_0_r _ h)|]. unfold reduce_coll. rewrite reduce_one. destruct n as [|[|n]].
  - cbn [nested Nat.div2]. rewrite plain_short by exact px. rewrite (plain_true x px bx). destruct px as [[s ->]|[m ->]]; reflexivity.
  - cbn [nested Nat.div2 shortened none_single]. rewrite (plain_true x px bx). destruct px as [[s ->]|[m ->]]; reflexivity.
  - cbn [nested Nat.div2 shortened none_single truthy]. rewrite (proj1 (nested_items x px bx n)) by (apply Nat.succ_lt_mono in h; eapply Nat.lt_trans; [apply Nat.lt_succ_diag_r|exact h]).
    reflexivity.
Qed.

(** a dictionary all of whose values are blank is not deleted: what stays is no dictionary, and no empty value either *)
Theorem reduce_blank_dictionary_refuted fuel k d : 0 < fuel -> d <> [] -> (forall j v, In (j, v) d -> Blank v) ->
  exists n, reduce_coll fuel (JMap [(k, JMap d)]) = Ok (JMap [(k, JAtom n)]) /\ ~ Blank (JAtom n).
Proof.
  intros hf nd hb. destruct fuel as [|f]; [destruct (Nat.nlt_0_r _ hf)|]. exists 1. split; [|intros [h|h]; discriminate].
  unfold reduce_coll. rewrite reduce_one. cbn [shortened]. assert (existsb (fun e => truthy (snd e)) d = false) as ->.
  { apply not_true_is_false. intros h. apply existsb_exists in h. destruct h as ([j v] & i & t). cbn in t. destruct (hb j v i) as [->| ->]; discriminate. }
  destruct d; [congruence|reflexivity].
Qed.

(** a dictionary emptied by the deletion of what is in it stays, empty, at any depth *)
Fixpoint chain (ks : list str) (v : jv) : jv := match ks with [] => v | k :: ks' => JMap [(k, chain ks' v)] end.
Lemma chain_dict ks j v : truthy v = true -> exists k w, chain (ks ++ [j]) v = JMap [(k, w)] /\ truthy w = true.
Proof. intros t. destruct ks as [|k ks]; cbn; [exists j, v; auto|]. exists k, (chain (ks ++ [j]) v). split; [reflexivity|]. destruct ks; reflexivity. Qed.
Theorem reduce_emptied_stays_refuted ks j b : Blank b -> forall fuel, S (length ks) < fuel ->
  reduce_coll fuel (chain (ks ++ [j]) (JList [b])) = Ok (chain ks (JMap [])).
Proof.
  intros hb fuel. unfold reduce_coll. generalize 0. revert fuel. induction ks as [|k ks IH]; intros fuel lv h; (destruct fuel as [|fuel]; [destruct (Nat.nlt_0_r _ h)|]); cbn [app chain].
  - rewrite reduce_one. cbn [shortened none_single]. destruct hb as [->| ->]; reflexivity.
  - rewrite reduce_one. destruct (chain_dict ks j (JList [b]) eq_refl) as (k' & w & e & t).
    assert (shortened (chain (ks ++ [j]) (JList [b])) = chain (ks ++ [j]) (JList [b])) as -> by (rewrite e; cbn; rewrite t; reflexivity).
    assert (IH' := IH fuel (S lv) (proj2 (Nat.succ_lt_mono _ _) h)). rewrite e in *. cbn [truthy]. rewrite IH'. reflexivity.
Qed.

(** of blank values in a list every other one stays *)
Theorem reduce_blank_list_refuted fuel n b : Blank b -> n < fuel -> reduce_coll (S fuel) (JList (repeat b n)) = Ok (JList (repeat b (Nat.div2 n))).
Proof.
  intros hb lt. unfold reduce_coll. cbn [walk]. set (act := fun c p => do c1 <- do_reduce 0 c p; member _ c1 p).
  assert (del : forall i n, nth_error (repeat b n) i = Some b -> firstn i (repeat b n) ++ skipn (S i) (repeat b n) = repeat b (pred n)).
  { induction i as [|i IH]; intros [|m] e; try discriminate; [reflexivity|]. change (b :: (firstn i (repeat b m) ++ skipn (S i) (repeat b m)) = repeat b m). cbn [repeat nth_error] in e. rewrite (IH m e). destruct m; [destruct i; discriminate|reflexivity]. }
  assert (st : forall i n, i < n -> act (JList (repeat b n)) (PIdx i) = Ok (JList (repeat b (pred n)))).
  { intros i m h. unfold act, do_reduce. cbn [jget]. rewrite nth_error_repeat by exact h.
    assert (truthy (shortened b) = false) as -> by (destruct hb as [->| ->]; reflexivity). cbn [jdel]. rewrite del by (apply nth_error_repeat; exact h). cbn [rbind]. unfold member. cbn [jget].
    destruct (Nat.lt_ge_cases i (pred m)) as [h'|h']; [rewrite nth_error_repeat by exact h'; destruct hb as [->| ->]; reflexivity|].
    rewrite (proj2 (nth_error_None _ _)) by (rewrite repeat_length; exact h'). reflexivity. }
  assert (two : forall r, (forall i f, r < f -> over_items act f i (JList (repeat b (i + r))) = Ok (JList (repeat b (i + Nat.div2 r)))) /\
                          (forall i f, S r < f -> over_items act f i (JList (repeat b (i + S r))) = Ok (JList (repeat b (i + Nat.div2 (S r)))))).
  { induction r as [|r [IH1 IH2]].
    - split; intros i f h.
      + destruct f as [|f]; [destruct (Nat.nlt_0_r _ h)|]. cbn [over_items jget Nat.div2]. rewrite Nat.add_0_r, (proj2 (nth_error_None _ _)) by (rewrite repeat_length; apply Nat.le_refl). reflexivity.
      + destruct f as [|[|f]]; [destruct (Nat.nlt_0_r _ h)|destruct (Nat.lt_irrefl _ h)|]. rewrite Nat.add_1_r. cbn [over_items jget Nat.div2].
        rewrite nth_error_repeat by apply Nat.lt_succ_diag_r. rewrite st by apply Nat.lt_succ_diag_r. cbn [rbind pred over_items jget].
        rewrite (proj2 (nth_error_None _ _)) by (rewrite repeat_length; apply Nat.le_succ_diag_r). rewrite Nat.add_0_r. reflexivity.
    - split; [exact IH2|]. intros i f h. destruct f as [|f]; [destruct (Nat.nlt_0_r _ h)|]. cbn [over_items jget Nat.div2].
      assert (lt2 : i < i + S (S r)) by (apply Nat.lt_add_pos_r; apply Nat.lt_0_succ).
      rewrite nth_error_repeat by exact lt2. rewrite st by exact lt2. cbn [rbind]. rewrite !Nat.add_succ_r. cbn [pred]. rewrite <- Nat.add_succ_l.
      rewrite IH1 by (apply Nat.succ_lt_mono in h; eapply Nat.lt_trans; [apply Nat.lt_succ_diag_r|exact h]). rewrite Nat.add_succ_l. reflexivity. }
  apply (proj1 (two n) 0 fuel lt).
Qed.

Example ex_plain : reduce_coll 5 (JMap [(chars "a", JAtom 0); (chars "b", JStr (chars "x")); (chars "c", JStr [])]) = Ok (JMap [(chars "b", JStr (chars "x"))]).
Proof. reflexivity. Qed.
Example ex_nested : reduce_coll 9 (JMap [(chars "a", JList [JList [JAtom 3]])]) = Ok (JMap [(chars "a", JList [JAtom 3])]).
Proof. reflexivity. Qed.
Example ex_blank : reduce_coll 9 (JMap [(chars "a", JMap [(chars "b", JAtom 0)])]) = Ok (JMap [(chars "a", JAtom 1)]).
Proof. reflexivity. Qed.
Example ex_emptied : reduce_coll 9 (JMap [(chars "a", JMap [(chars "b", JList [JAtom 0])])]) = Ok (JMap [(chars "a", JMap [])]).
Proof. reflexivity. Qed.
Example ex_list : reduce_coll 9 (JList [JAtom 0; JAtom 0; JAtom 0]) = Ok (JList [JAtom 0]).
Proof. reflexivity. Qed.
Example ex_fine : Wf (JList [JAtom 0; JMap [(chars "a", JList [JAtom 2])]]) /\ reduce_coll 9 (JList [JAtom 0; JMap [(chars "a", JList [JAtom 2])]]) <> Err OutOfFuel.
Proof.
  split; [|discriminate]. constructor. intros v [<-|[<-|[]]]; constructor; [repeat constructor; intros []|].
  intros k v [h|[]]. injection h as <- <-. constructor. intros v [<-|[]]. constructor.
Qed.
Print Assumptions reduce_plain_dictionary.
Print Assumptions reduce_nested_lists_refuted.
Print Assumptions reduce_blank_dictionary_refuted.
Print Assumptions reduce_blank_list_refuted.
Print Assumptions reduce_emptied_stays_refuted.
