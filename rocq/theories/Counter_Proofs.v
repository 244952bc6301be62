From Verif Require Import Counter_Model.
From Coq Require Import Sorted.

Definition consecutive (a : Z) (n : nat) : list Z := map (fun k => (a + Z.of_nat k)%Z) (seq 0 n).

Lemma consecutive_S a n : consecutive a (S n) = consecutive a n ++ [(a + Z.of_nat n)%Z].
Proof. unfold consecutive. rewrite seq_S, map_app. reflexivity. Qed.

Definition pending (s : cstate) : nat :=
  match c_lock s with
  | Some t => match c_pcs s t with PWritten _ => 1 | _ => 0 end
  | None => 0
  end.

Definition CInv (a : Z) (s : cstate) : Prop :=
  map snd (c_returned s) = consecutive a (length (c_returned s)) /\
  c_count s = (a + Z.of_nat (length (c_returned s) + pending s))%Z /\
  (forall t, c_pcs s t <> PIdle <-> c_lock s = Some t) /\
  (forall t v, c_pcs s t = PRead v -> v = (a + Z.of_nat (length (c_returned s)))%Z) /\
  (forall t v, c_pcs s t = PWritten v -> v = (a + Z.of_nat (length (c_returned s)))%Z).

Lemma set_pc_same f t p : set_pc f t p t = p.
Proof. unfold set_pc. rewrite Nat.eqb_refl. reflexivity. Qed.
Lemma set_pc_other f t p t' : t' <> t -> set_pc f t p t' = f t'.
Proof. intros n. unfold set_pc. apply Nat.eqb_neq in n. rewrite n. reflexivity. Qed.

Lemma CInv_init a : CInv a (counter_init a).
Proof. split; [reflexivity|]. split; [simpl; lia|]. split; [|split]; simpl; intros; try discriminate. split; congruence. Qed.

Lemma CInv_step a s t : CInv a s -> CInv a (counter_step s t).
Proof.
  intros (ret & cnt & own & rd & wr). unfold counter_step. destruct (c_pcs s t) as [| |v|v] eqn:e.
  - destruct (c_lock s) as [h|] eqn:el; [split; [exact ret|]; split; [exact cnt|]; rewrite el in *; auto|].
    assert (idle : forall t', c_pcs s t' = PIdle).
    { intros t'. destruct (c_pcs s t') eqn:e'; [reflexivity|exfalso..]; specialize (proj1 (own t')); rewrite e'; intros h; discriminate h; discriminate. }
    split; [exact ret|]. cbn. unfold pending in *. rewrite el in cnt. cbn. rewrite set_pc_same. split; [exact cnt|]. split; [|split].
    + intros t'. destruct (Nat.eq_dec t' t) as [->|n]; [rewrite set_pc_same; split; [reflexivity|discriminate]|].
      rewrite set_pc_other, idle by exact n. split; congruence.
    + intros t' v. destruct (Nat.eq_dec t' t) as [->|n]; [rewrite set_pc_same; discriminate|]. rewrite set_pc_other by exact n. apply rd.
    + intros t' v. destruct (Nat.eq_dec t' t) as [->|n]; [rewrite set_pc_same; discriminate|]. rewrite set_pc_other by exact n. apply wr.
  - assert (el : c_lock s = Some t) by (apply own; congruence).
    unfold pending in cnt. rewrite el, e in cnt. unfold CInv, pending. cbn. rewrite el, set_pc_same.
    split; [exact ret|]. split; [exact cnt|]. split; [|split].
    + intros t'. destruct (Nat.eq_dec t' t) as [->|n]; [rewrite set_pc_same; split; [reflexivity|discriminate]|].
      rewrite set_pc_other by exact n. rewrite own, el. tauto.
    + intros t' v. destruct (Nat.eq_dec t' t) as [->|n]; [rewrite set_pc_same; injection 1 as <-; rewrite cnt; f_equal; f_equal; lia|].
      rewrite set_pc_other by exact n. apply rd.
    + intros t' v. destruct (Nat.eq_dec t' t) as [->|n]; [rewrite set_pc_same; discriminate|]. rewrite set_pc_other by exact n. apply wr.
  - assert (el : c_lock s = Some t) by (apply own; congruence). assert (ev := rd t v e).
    unfold pending in cnt. rewrite el, e in cnt. unfold CInv, pending. cbn. rewrite el, set_pc_same.
    split; [exact ret|]. split; [lia|]. split; [|split].
    + intros t'. destruct (Nat.eq_dec t' t) as [->|n]; [rewrite set_pc_same; split; [reflexivity|discriminate]|].
      rewrite set_pc_other by exact n. rewrite own, el. tauto.
    + intros t' v'. destruct (Nat.eq_dec t' t) as [->|n]; [rewrite set_pc_same; discriminate|]. rewrite set_pc_other by exact n. apply rd.
    + intros t' v'. destruct (Nat.eq_dec t' t) as [->|n]; [rewrite set_pc_same; injection 1 as <-; exact ev|]. rewrite set_pc_other by exact n. apply wr.
  - assert (el : c_lock s = Some t) by (apply own; congruence). assert (ev := wr t v e).
    unfold pending in cnt. rewrite el, e in cnt.
    assert (idle : forall t', t' <> t -> c_pcs s t' = PIdle).
    { intros t' n. destruct (c_pcs s t') eqn:e'; [reflexivity|exfalso..]; assert (h : c_lock s = Some t') by (apply own; congruence); congruence. }
    unfold CInv, pending. cbn [c_returned c_count c_pcs c_lock]. rewrite map_app, app_length. cbn [length map snd]. rewrite Nat.add_1_r, consecutive_S, ret. subst v.
    split; [reflexivity|]. split; [lia|]. split; [|split].
    + intros t'. destruct (Nat.eq_dec t' t) as [->|n]; [rewrite set_pc_same; split; congruence|].
      rewrite set_pc_other, idle by exact n. split; congruence.
    + intros t' v'. destruct (Nat.eq_dec t' t) as [->|n]; [rewrite set_pc_same; discriminate|]. rewrite set_pc_other, idle by exact n. discriminate.
    + intros t' v'. destruct (Nat.eq_dec t' t) as [->|n]; [rewrite set_pc_same; discriminate|]. rewrite set_pc_other, idle by exact n. discriminate.
Qed.

Lemma CInv_run a sched : CInv a (counter_run a sched).
Proof.
  unfold counter_run. generalize (CInv_init a). generalize (counter_init a). induction sched as [|t sched IH]; intros s h; simpl; [exact h|].
  apply IH, CInv_step, h.
Qed.

Lemma consecutive_sorted a n : StronglySorted Z.lt (consecutive a n).
Proof.
  unfold consecutive. generalize 0. induction n as [|n IH]; intros k; simpl; [constructor|]. constructor; [apply IH|].
  apply Forall_forall. intros x i. apply in_map_iff in i. destruct i as (m & <- & i). apply in_seq in i. lia.
Qed.
Lemma sorted_filter {A} (f : A * Z -> bool) (l : list (A * Z)) :
  StronglySorted Z.lt (map snd l) -> StronglySorted Z.lt (map snd (filter f l)).
Proof.
  induction l as [|x l IH]; simpl; intros h; [constructor|]. inversion h as [|? ? h' fa]; subst.
  destruct (f x); simpl; [|auto]. constructor; [auto|]. rewrite Forall_forall in *. intros y i. apply in_map_iff in i.
  destruct i as (z & <- & i). apply filter_In in i. apply fa. apply in_map. tauto.
Qed.

Lemma counter_progress a sched :
  let s := counter_run a sched in
  match c_lock s with
  | Some t => length (c_returned (counter_step (counter_step (counter_step s t) t) t)) > length (c_returned s)
  | None => forall t, c_lock (counter_step s t) = Some t
  end.
Proof.
  intros s. assert (i := CInv_run a sched). fold s in i. destruct i as (_ & _ & own & _).
  destruct (c_lock s) as [t|] eqn:el.
  - assert (h : c_pcs s t <> PIdle) by (apply own; reflexivity).
    assert (grow : forall s' t', length (c_returned s') <= length (c_returned (counter_step s' t'))).
    { intros s' t'. unfold counter_step. destruct (c_pcs s' t') as [| |v|v]; [destruct (c_lock s')| | |]; simpl; try rewrite app_length; lia. }
    destruct (c_pcs s t) as [| |v|v] eqn:e; [congruence| | |].
    + unfold counter_step at 3. rewrite e. unfold counter_step at 2. cbn. rewrite set_pc_same. unfold counter_step. cbn. rewrite set_pc_same.
      cbn. rewrite app_length. simpl. lia.
    + unfold counter_step at 3. rewrite e. unfold counter_step at 2. cbn. rewrite set_pc_same. 
      eapply Nat.lt_le_trans; [|apply grow]. cbn. rewrite app_length. simpl. lia.
    + unfold counter_step at 3. rewrite e. eapply Nat.lt_le_trans; [|apply grow]. eapply Nat.lt_le_trans; [|apply grow].
      cbn. rewrite app_length. simpl. lia.
  - intros t. unfold counter_step. destruct (c_pcs s t) eqn:e; [rewrite el; reflexivity|exfalso..];
      assert (h : None = Some t) by (apply own; congruence); congruence.
Qed.
