(** Lemmas on Ix_Model. *)
From Verif Require Export Ix_Spec.
From Coq Require Import Lia.

Definition static (a b : node) : Prop :=
  x_entity b = x_entity a /\ x_lazy b = x_lazy a /\ x_qual b = x_qual a /\ x_parent b = x_parent a /\ x_required b = x_required a /\
  x_pks b = x_pks a /\ x_kdeps b = x_kdeps a /\ x_cdeps b = x_cdeps a.
Lemma static_refl a : static a a. Proof. repeat split. Qed.
Lemma static_trans a b c : static a b -> static b c -> static a c.
Proof. unfold static. intuition congruence. Qed.

(** a value kept is that of the data *)
Definition coh (nd : node) : Prop := forall k, x_val nd k = None \/ x_val nd k = x_data nd k.
Definition same_data (a b : node) : Prop := forall k, x_data b k = x_data a k.
(** only values have been evaluated *)
Definition quiet (a b : node) : Prop := static a b /\ same_data a b /\ x_str b = x_str a /\ x_ids b = x_ids a /\ x_keys b = x_keys a.
Lemma quiet_refl a : quiet a a. Proof. repeat split. Qed.
Lemma quiet_trans a b c : quiet a b -> quiet b c -> quiet a c.
Proof.
  intros (s & d & e1 & e2 & e3) (s' & d' & f1 & f2 & f3). split; [exact (static_trans _ _ _ s s')|].
  split; [intros k; rewrite d', d; reflexivity|]. repeat split; congruence.
Qed.

Lemma upd_same f k v : upd f k v k = v.
Proof. unfold upd. destruct (eq_dec k k); congruence. Qed.
Lemma upd_other f k v k' : k' <> k -> upd f k v k' = f k'.
Proof. unfold upd. destruct (eq_dec k' k); congruence. Qed.

Lemma or_coh nd k : coh nd -> py_or (x_val nd k) (x_data nd k) = x_data nd k.
Proof. intros c. destruct (c k) as [e|e]; rewrite e; [reflexivity|]. destruct (x_data nd k) as [[|x l]|]; reflexivity. Qed.

Section Literal.
  Variable ev : str -> str.
  Variable is_expr : str -> bool.
  Hypothesis literal : forall r, ev r = r.
  Notation evaluate := (evaluate ev is_expr).
  Notation set_item := (set_item ev is_expr).
  Notation read_item := (read_item ev is_expr).
  Notation read_items := (read_items ev is_expr).
  Notation read_ids := (read_ids ev is_expr).
  Notation read_cname := (read_cname ev is_expr).
  Notation step := (step ev is_expr).
  Notation born := (born ev is_expr).
  Notation run := (run ev is_expr).

  Lemma evaluate_quiet k nd : quiet nd (evaluate k nd).
  Proof.
    unfold Ix_Model.evaluate. destruct (x_data nd k) as [r|] eqn:e; [|apply quiet_refl].
    repeat split. intros k'. cbn. unfold upd. destruct (eq_dec k' k) as [->|]; [|reflexivity].
    rewrite literal, e. destruct (is_expr r); reflexivity.
  Qed.
  Lemma evaluate_coh k nd : coh nd -> coh (evaluate k nd).
  Proof.
    intros c k'. rewrite (proj1 (proj2 (evaluate_quiet k nd)) k'). unfold Ix_Model.evaluate.
    destruct (x_data nd k) as [r|] eqn:e; [|apply c]. cbn. unfold upd. destruct (eq_dec k' k) as [->|]; [|apply c].
    right. rewrite literal. congruence.
  Qed.
  Lemma evaluate_val k nd : coh nd -> x_val (evaluate k nd) k = x_data nd k.
  Proof.
    intros c. unfold Ix_Model.evaluate. destruct (x_data nd k) as [r|] eqn:e.
    - cbn. rewrite upd_same, literal. reflexivity.
    - destruct (c k) as [h|h]; congruence.
  Qed.
  Lemma evaluate_val_other k k' nd : k' <> k -> x_val (evaluate k nd) k' = x_val nd k'.
  Proof. intros ne. unfold Ix_Model.evaluate. destruct (x_data nd k); [|reflexivity]. cbn. apply upd_other, ne. Qed.

  Lemma read_item_quiet k nd : quiet nd (snd (read_item k nd)).
  Proof. unfold Ix_Model.read_item. cbn. destruct (x_val nd k); [apply quiet_refl|apply evaluate_quiet]. Qed.
  Lemma read_item_coh k nd : coh nd -> coh (snd (read_item k nd)).
  Proof. unfold Ix_Model.read_item. cbn. destruct (x_val nd k); [auto|apply evaluate_coh]. Qed.
  Lemma read_item_value k nd : coh nd -> fst (read_item k nd) = x_data nd k.
  Proof.
    intros c. unfold Ix_Model.read_item. cbn. destruct (x_val nd k) as [v|] eqn:e; [|apply evaluate_val, c].
    rewrite e. destruct (c k) as [h|h]; congruence.
  Qed.
  Lemma read_item_val_other k k' nd : k' <> k -> x_val (snd (read_item k nd)) k' = x_val nd k'.
  Proof. intros ne. unfold Ix_Model.read_item. cbn. destruct (x_val nd k); [reflexivity|apply evaluate_val_other, ne]. Qed.
  Lemma read_item_val_some k k' v nd : x_val nd k' = Some v -> x_val (snd (read_item k nd)) k' = Some v.
  Proof.
    intros e. destruct (eq_dec k' k) as [->|ne].
    - unfold Ix_Model.read_item. cbn. rewrite e. exact e.
    - rewrite read_item_val_other; assumption.
  Qed.

  Lemma read_items_quiet ks : forall nd, quiet nd (snd (read_items ks nd)).
  Proof.
    induction ks as [|k r IH]; intros nd; [apply quiet_refl|]. cbn -[Ix_Model.read_item].
    exact (quiet_trans _ _ _ (read_item_quiet k nd) (IH _)).
  Qed.
  Lemma read_items_coh ks : forall nd, coh nd -> coh (snd (read_items ks nd)).
  Proof. induction ks as [|k r IH]; intros nd c; [exact c|]. cbn -[Ix_Model.read_item]. apply IH, read_item_coh, c. Qed.
  Lemma read_items_values ks : forall nd, coh nd -> fst (read_items ks nd) = map (x_data nd) ks.
  Proof.
    induction ks as [|k r IH]; intros nd c; [reflexivity|]. cbn -[Ix_Model.read_item].
    rewrite (read_item_value k nd c), (IH _ (read_item_coh k nd c)). f_equal.
    apply map_ext. apply (read_item_quiet k nd).
  Qed.
  Lemma read_items_val_other ks k' : forall nd, ~ In k' ks -> x_val (snd (read_items ks nd)) k' = x_val nd k'.
  Proof.
    induction ks as [|k r IH]; intros nd h; [reflexivity|]. cbn -[Ix_Model.read_item].
    rewrite IH by (intros i; apply h; right; exact i). apply read_item_val_other. intros ->. apply h. left. reflexivity.
  Qed.
  Lemma read_items_val_some ks k' v : forall nd, x_val nd k' = Some v -> x_val (snd (read_items ks nd)) k' = Some v.
  Proof. induction ks as [|k r IH]; intros nd h; [exact h|]. cbn -[Ix_Model.read_item]. apply IH, read_item_val_some, h. Qed.

  (** ** touching and setting *)
  Lemma touch_facts k nd :
    static nd (touch k nd) /\ same_data nd (touch k nd) /\ x_str (touch k nd) = None /\ x_keys (touch k nd) = x_keys nd /\
    x_ids (touch k nd) = (if mem k (x_kdeps nd) then None else x_ids nd) /\
    (forall k', x_val (touch k nd) k' = if eq_dec k' k then None else if mem k (x_cdeps nd) && (if eq_dec k' k_cname then true else false) then None else x_val nd k').
  Proof.
    unfold touch. destruct (mem k (x_cdeps nd)); destruct (mem k (x_kdeps nd)); cbn; repeat split; intros k'; unfold upd;
      destruct (eq_dec k' k_cname); destruct (eq_dec k' k); reflexivity.
  Qed.

  Lemma set_data_facts k v nd :
    static nd (set_data k v nd) /\ x_keys (set_data k v nd) = x_keys nd /\
    (forall k', x_data (set_data k v nd) k' = if eq_dec k' k then v else x_data nd k') /\
    (v = x_data nd k -> x_str (set_data k v nd) = x_str nd /\ x_ids (set_data k v nd) = x_ids nd /\ x_val (set_data k v nd) = x_val nd) /\
    (v <> x_data nd k -> x_str (set_data k v nd) = None /\ x_ids (set_data k v nd) = (if mem k (x_kdeps nd) then None else x_ids nd) /\
                         x_val (set_data k v nd) k = None /\ (In k (x_cdeps nd) -> x_val (set_data k v nd) k_cname = None) /\
                         (forall k', x_val (set_data k v nd) k' = None \/ (k' <> k /\ x_val (set_data k v nd) k' = x_val nd k'))).
  Proof.
    destruct (touch_facts k nd) as (s & d & e1 & e2 & e3 & e4).
    unfold set_data. destruct (eq_dec v (x_data nd k)) as [ev0|ne].
    - split; [repeat split|]. split; [reflexivity|]. split; [intros k'; reflexivity|]. split; [repeat split|]. congruence.
    - split; [exact (static_trans _ _ _ s (conj eq_refl (conj eq_refl (conj eq_refl (conj eq_refl (conj eq_refl (conj eq_refl (conj eq_refl eq_refl))))))))|].
      split; [exact e2|]. split; [intros k'; cbn; unfold upd; destruct (eq_dec k' k); [reflexivity|apply d]|].
      split; [congruence|]. intros _. cbn. repeat split.
      + exact e1.
      + exact e3.
      + rewrite e4. destruct (eq_dec k k); congruence.
      + intros i. rewrite e4. destruct (eq_dec k_cname k); [reflexivity|]. destruct (mem k (x_cdeps nd)) eqn:m; [|apply mem_not_In in m; contradiction].
        reflexivity.
      + intros k'. rewrite e4. destruct (eq_dec k' k); [left; reflexivity|].
        destruct (mem k (x_cdeps nd) && (if eq_dec k' k_cname then true else false)); [left; reflexivity|right; split; [assumption|reflexivity]].
  Qed.
  Lemma set_data_coh k v nd : coh nd -> coh (set_data k v nd).
  Proof.
    intros c k'. destruct (set_data_facts k v nd) as (_ & _ & d & same & diff). rewrite d.
    destruct (eq_dec v (x_data nd k)) as [e|ne].
    - rewrite (proj2 (proj2 (same e))). destruct (eq_dec k' k) as [->|]; [rewrite e|]; apply c.
    - destruct (proj2 (proj2 (proj2 (proj2 (diff ne)))) k') as [h|[n h]]; [left; exact h|]. rewrite h.
      destruct (eq_dec k' k); [contradiction|apply c].
  Qed.

  (** ** what holds of every instance at any time *)
  Record ninv (nd : node) : Prop := {
    ni_coh : coh nd;
    ni_keys : forall l, x_ids nd = Some l -> x_keys nd = Some l;
    ni_now : forall l, x_ids nd = Some l -> incl (x_pks nd) (x_kdeps nd) -> l = keys_now nd;
    ni_text : forall t, x_entity nd = true -> x_str nd = Some t -> exists ks, x_keys nd = Some ks /\ t = keys_text nd ks
  }.

  Lemma keys_now_same a b : static a b -> same_data a b -> keys_now b = keys_now a.
  Proof. intros (_ & _ & _ & _ & _ & e & _) d. unfold keys_now. rewrite e. apply map_ext. exact d. Qed.
  Lemma keys_text_same a b ks : static a b -> keys_text b ks = keys_text a ks.
  Proof. intros (_ & _ & e & _). unfold keys_text. rewrite e. reflexivity. Qed.

  Lemma ninv_quiet a b : quiet a b -> coh b -> ninv a -> ninv b.
  Proof.
    intros (s & d & e1 & e2 & e3) c [_ i2 i3 i4]. split; [exact c| | |].
    - intros l h. rewrite e3. apply i2. congruence.
    - intros l h i. rewrite (keys_now_same a b s d). destruct s as (_ & _ & _ & _ & _ & f1 & f2 & _). apply i3; [congruence|]. rewrite <- f1, <- f2. exact i.
    - intros t h1 h2. pose proof s as (f & _). destruct (i4 t) as (ks & g1 & g2); [congruence|congruence|].
      exists ks. split; [congruence|]. rewrite (keys_text_same a b ks s). exact g2.
  Qed.
  Lemma ninv_set_data k v nd : ninv nd -> ninv (set_data k v nd).
  Proof.
    intros [i1 i2 i3 i4]. destruct (set_data_facts k v nd) as (s & ek & d & same & diff). split; [apply set_data_coh, i1| | |].
    - intros l h. rewrite ek. apply i2. destruct (eq_dec v (x_data nd k)) as [e|ne]; [destruct (same e) as (_ & e2 & _); congruence|].
      destruct (diff ne) as (_ & e2 & _). rewrite e2 in h. destruct (mem k (x_kdeps nd)); congruence.
    - intros l h i. pose proof s as (_ & _ & _ & _ & _ & f1 & f2 & _). rewrite f1, f2 in i.
      destruct (eq_dec v (x_data nd k)) as [e|ne].
      + destruct (same e) as (_ & e2 & _). rewrite (keys_now_same nd _ s); [apply i3; [congruence|exact i]|].
        intros k'. rewrite d. destruct (eq_dec k' k) as [->|]; congruence.
      + destruct (diff ne) as (_ & e2 & _). rewrite e2 in h. destruct (mem k (x_kdeps nd)) eqn:m; [discriminate|].
        apply mem_not_In in m. rewrite (i3 l h i). unfold keys_now. rewrite f1. apply map_ext_in. intros k' hk. rewrite d.
        destruct (eq_dec k' k) as [->|]; [|reflexivity]. exfalso. apply m, i, hk.
    - intros t h1 h2. pose proof s as (f & _). destruct (eq_dec v (x_data nd k)) as [e|ne].
      + destruct (same e) as (e1 & _). destruct (i4 t) as (ks & g1 & g2); [congruence|congruence|].
        exists ks. split; [congruence|]. rewrite (keys_text_same nd _ ks s). exact g2.
      + destruct (diff ne) as (e1 & _). congruence.
  Qed.
  Lemma ninv_set_item k v nd : ninv nd -> ninv (set_item k v nd).
  Proof.
    intros i. unfold Ix_Model.set_item. destruct (eq_dec k k_ids); [exact i|]. pose proof (ninv_set_data k v nd i) as j.
    destruct (x_lazy nd); [exact j|]. apply (ninv_quiet _ _ (evaluate_quiet k _)); [|exact j]. apply evaluate_coh, ni_coh, j.
  Qed.
  Lemma read_ids_facts nd : coh nd ->
    static nd (snd (read_ids nd)) /\ same_data nd (snd (read_ids nd)) /\ coh (snd (read_ids nd)) /\
    match x_ids nd with
    | Some l => fst (read_ids nd) = Some l /\ x_ids (snd (read_ids nd)) = Some l /\ x_str (snd (read_ids nd)) = x_str nd /\ x_keys (snd (read_ids nd)) = x_keys nd
    | None => fst (read_ids nd) = Some (keys_now nd) /\ x_ids (snd (read_ids nd)) = Some (keys_now nd) /\ x_str (snd (read_ids nd)) = None /\
              x_keys (snd (read_ids nd)) = Some (keys_now nd)
    end.
  Proof.
    intros c. unfold Ix_Model.read_ids. pose proof (read_items_quiet (x_kdeps nd) nd) as q. pose proof (read_items_coh (x_kdeps nd) nd c) as c0.
    set (nd0 := snd (read_items (x_kdeps nd) nd)) in *. clearbody nd0. destruct q as (s & d & e1 & e2 & e3). rewrite e2.
    destruct (x_ids nd) as [l|] eqn:ei.
    - cbn. repeat split; try apply s; try exact d; try exact c0; congruence.
    - pose proof (read_items_quiet (x_pks nd0) nd0) as (s' & d' & f1 & f2 & f3). pose proof (read_items_coh (x_pks nd0) nd0 c0) as c1.
      pose proof (read_items_values (x_pks nd0) nd0 c0) as ev1.
      set (q := read_items (x_pks nd0) nd0) in *. clearbody q. destruct q as [ks nd1]. cbn [fst snd] in *.
      assert (ks = keys_now nd) as ->. { rewrite ev1. exact (keys_now_same nd nd0 s d). }
      split; [exact (static_trans _ _ _ s s')|]. split; [intros k; cbn; rewrite d', d; reflexivity|]. split; [exact c1|]. repeat split.
  Qed.
  Lemma ninv_read_ids nd : ninv nd -> ninv (snd (read_ids nd)).
  Proof.
    intros [i1 i2 i3 i4]. destruct (read_ids_facts nd i1) as (s & d & c & m). destruct (x_ids nd) as [l|] eqn:e.
    - apply (ninv_quiet nd); [|exact c|split; [exact i1|rewrite e; exact i2|rewrite e; exact i3|exact i4]].
      destruct m as (_ & m1 & m2 & m3). repeat split; try apply s; try exact d; congruence.
    - destruct m as (_ & m1 & m2 & m3). split; [exact c|congruence| |congruence].
      intros l h _. rewrite (keys_now_same nd _ s d). congruence.
  Qed.

  Lemma put_same (st : insts) n nd : put st n nd n = nd.
  Proof. unfold put. rewrite Nat.eqb_refl. reflexivity. Qed.
  Lemma put_other (st : insts) n nd m : m <> n -> put st n nd m = st m.
  Proof. unfold put. intros h. apply Nat.eqb_neq in h. rewrite h. reflexivity. Qed.

  (** ** what one operation does to each instance *)
  Definition wf (st : insts) : Prop := forall n, ninv (st n) /\ (forall p, x_parent (st n) = Some p -> p < n).

  Lemma entity_text_is nd : entity_text nd = match x_keys nd with Some ks => Ok (keys_text nd ks) | None => Err TypeError end.
  Proof. reflexivity. Qed.

  Lemma ninv_with_str t nd : ninv nd -> (x_entity nd = true -> entity_text nd = Ok t) -> ninv (with_str (Some t) nd).
  Proof.
    intros [i1 i2 i3 i4] h. split; [exact i1|exact i2|exact i3|]. cbn. intros t' e [= <-]. specialize (h e). rewrite entity_text_is in h.
    destruct (x_keys nd) as [ks|]; [|discriminate]. injection h as <-. exists ks. split; reflexivity.
  Qed.

  Definition touched (o : op) : nat := match o with SetItem n _ _ | ReadItem n _ | ReadIds n | ReadCname n | AskText n => n end.

  Lemma read_cname_facts n st : coh (st n) ->
    exists nd, snd (read_cname n st) = put st n nd /\
      (quiet (st n) nd /\ coh nd \/ exists nd0, quiet (st n) nd0 /\ coh nd0 /\ nd = evaluate k_cname (set_data k_cname (cname_of (S n) (put st n nd0) n) nd0)).
  Proof.
    intros c. unfold Ix_Model.read_cname. pose proof (read_items_quiet (x_cdeps (st n)) (st n)) as q. pose proof (read_items_coh (x_cdeps (st n)) (st n) c) as c0.
    set (nd0 := snd (read_items (x_cdeps (st n)) (st n))) in *. clearbody nd0.
    destruct (x_val nd0 k_cname).
    - exists nd0. split; [reflexivity|left; split; [exact q|exact c0]].
    - eexists. split; [reflexivity|]. right. exists nd0. auto.
  Qed.

  Lemma step_other st o m : m <> touched o -> step st o m = st m.
  Proof.
    intros h. destruct o as [n k v|n k|n|n|n]; cbn [Ix_Model.step touched] in *; try (apply put_other; exact h).
    - unfold Ix_Model.read_cname. destruct (x_val _ k_cname); cbn [snd]; apply put_other, h.
    - unfold to_str. destruct (x_str (st n)); [reflexivity|]. destruct (if x_entity (st n) then entity_text (st n) else Ok (instance_text n st)); [|reflexivity].
      apply put_other, h.
  Qed.

  (** one operation: the instance keeps its data, or forgets its text *)
  Lemma step_shape st o n : wf st ->
    static (st n) (step st o n) /\ ninv (step st o n) /\
    (x_keys (st n) <> None -> x_keys (step st o n) <> None) /\
    ((same_data (st n) (step st o n) /\ (x_str (step st o n) = x_str (st n) \/ x_str (step st o n) = None \/
        (o = AskText n /\ x_str (st n) = None /\ x_entity (st n) = false /\ x_str (step st o n) = Some (instance_text n st)) \/
        x_entity (st n) = true)) \/ x_str (step st o n) = None) /\
    ((forall v, o <> SetItem n k_name v) -> x_data (step st o n) k_name = x_data (st n) k_name).
  Proof.
    intros w. destruct (w n) as [ni _]. destruct (Nat.eq_dec n (touched o)) as [e|ne].
    2: { rewrite (step_other st o n ne). split; [apply static_refl|]. split; [exact ni|]. split; [auto|]. split; [left; split; [intros k; reflexivity|left; reflexivity]|reflexivity]. }
    destruct o as [m k v|m k|m|m|m]; cbn [touched] in e; subst m.
    - cbn [Ix_Model.step]. rewrite put_same. pose proof (ninv_set_item k v _ ni) as ni'. revert ni'. unfold Ix_Model.set_item.
      destruct (eq_dec k k_ids) as [_|_].
      { intros _. split; [apply static_refl|]. split; [exact ni|]. split; [auto|]. split; [left; split; [intros k'; reflexivity|left; reflexivity]|reflexivity]. }
      intros ni'. destruct (set_data_facts k v (st n)) as (s & ek & d & same & diff).
      assert (quiet (set_data k v (st n)) (if x_lazy (st n) then set_data k v (st n) else evaluate k (set_data k v (st n)))) as (s1 & d1 & f1 & f2 & f3).
      { destruct (x_lazy (st n)); [apply quiet_refl|apply evaluate_quiet]. }
      split; [exact (static_trans _ _ _ s s1)|]. split; [exact ni'|]. split; [congruence|]. split.
      + destruct (eq_dec v (x_data (st n) k)) as [ev0|nv].
        * left. split; [|left; rewrite f1; apply (same ev0)]. intros k'. rewrite d1, d. destruct (eq_dec k' k) as [->|]; congruence.
        * right. rewrite f1. apply (diff nv).
      + intros h. rewrite d1, d. destruct (eq_dec k_name k) as [<-|]; [|reflexivity]. exfalso. exact (h v eq_refl).
    - cbn [Ix_Model.step]. rewrite put_same. pose proof (read_item_quiet k (st n)) as q.
      pose proof (ninv_quiet _ _ q (read_item_coh k _ (ni_coh _ ni)) ni) as ni'. destruct q as (s & d & f1 & f2 & f3).
      split; [exact s|]. split; [exact ni'|]. split; [congruence|]. split; [left; split; [exact d|left; exact f1]|intros _; apply d].
    - cbn [Ix_Model.step]. rewrite put_same. pose proof (ninv_read_ids _ ni) as ni'. destruct (read_ids_facts _ (ni_coh _ ni)) as (s & d & c & m).
      split; [exact s|]. split; [exact ni'|]. destruct (x_ids (st n)) as [l|].
      + destruct m as (_ & _ & m2 & m3). split; [congruence|]. split; [left; split; [exact d|left; exact m2]|intros _; apply d].
      + destruct m as (_ & _ & m2 & m3). split; [congruence|]. split; [right; exact m2|intros _; apply d].
    - cbn [Ix_Model.step]. destruct (read_cname_facts n st (ni_coh _ ni)) as (nd & -> & h). rewrite put_same. destruct h as [[q cn]|(nd0 & q & c0 & ->)].
      + pose proof (ninv_quiet _ _ q cn ni) as ni'. destruct q as (s & d & f1 & f2 & f3).
        split; [exact s|]. split; [exact ni'|]. split; [congruence|]. split; [left; split; [exact d|left; exact f1]|intros _; apply d].
      + pose proof (ninv_quiet _ _ q c0 ni) as ni0. set (c := cname_of (S n) (put st n nd0) n). clearbody c.
        pose proof (ninv_set_data k_cname c nd0 ni0) as ni1. destruct (set_data_facts k_cname c nd0) as (s1 & ek & d1 & same & diff).
        pose proof (evaluate_quiet k_cname (set_data k_cname c nd0)) as q2.
        pose proof (ninv_quiet _ _ q2 (evaluate_coh _ _ (ni_coh _ ni1)) ni1) as ni2. destruct q as (s & d & f1 & f2 & f3). destruct q2 as (s2 & d2 & g1 & g2 & g3).
        split; [exact (static_trans _ _ _ s (static_trans _ _ _ s1 s2))|]. split; [exact ni2|]. split; [congruence|]. split.
        * destruct (eq_dec c (x_data nd0 k_cname)) as [e|ne].
          -- left. split; [|left; rewrite g1, <- f1; apply (same e)]. intros k'. rewrite d2, d1. destruct (eq_dec k' k_cname) as [->|]; rewrite <- ?d; congruence.
          -- right. rewrite g1. apply (diff ne).
        * intros _. rewrite d2, d1. destruct (eq_dec k_name k_cname); [discriminate|]. apply d.
    - cbn [Ix_Model.step]. unfold to_str. destruct (x_str (st n)) as [t|] eqn:et.
      { cbn. split; [apply static_refl|]. split; [exact ni|]. split; [auto|]. split; [left; split; [intros k; reflexivity|left; exact et]|reflexivity]. }
      destruct (x_entity (st n)) eqn:ee.
      + destruct (entity_text (st n)) as [t|err] eqn:ete.
        * cbn [snd]. rewrite put_same. split; [repeat split|]. split; [apply ninv_with_str; [exact ni|intros _; exact ete]|]. split; [auto|].
          split; [left; split; [intros k; reflexivity|right; right; right; reflexivity]|reflexivity].
        * cbn [snd]. split; [apply static_refl|]. split; [exact ni|]. split; [auto|]. split; [right; exact et|reflexivity].
      + cbn [snd]. rewrite put_same. split; [repeat split|]. split; [apply ninv_with_str; [exact ni|congruence]|]. split; [auto|].
        split; [left; split; [intros k; reflexivity|right; right; left; repeat split]|reflexivity].
  Qed.

  Lemma wf_step st o : wf st -> wf (step st o).
  Proof.
    intros w n. destruct (step_shape st o n w) as (s & i & _). split; [exact i|]. destruct s as (_ & _ & _ & e & _). rewrite e. apply (w n).
  Qed.
  Lemma blank_ninv st n : blank st -> ninv (st n).
  Proof. intros b. destruct (b n) as (b1 & b2 & b3 & b4 & _). split; [intros k; left; apply b1|congruence|congruence|congruence]. Qed.
  Lemma born_facts st n : blank st -> static (st n) (born st n) /\ same_data (st n) (born st n) /\ ninv (born st n) /\ x_str (born st n) = None /\
    (x_entity (st n) = true -> x_keys (born st n) = Some (keys_now (st n)) /\ x_ids (born st n) = Some (keys_now (st n))).
  Proof.
    intros b. pose proof (blank_ninv st n b) as i. pose proof (ninv_read_ids _ i) as i'. destruct (read_ids_facts _ (ni_coh _ i)) as (s & d & _ & m).
    destruct (b n) as (_ & b2 & _ & b4 & _). rewrite b2 in m. unfold Ix_Model.born. destruct (x_entity (st n)).
    - repeat split; try apply s; try apply d; try apply i'; apply m.
    - repeat split; try apply i; try exact b4; discriminate.
  Qed.
  Lemma born_wf st : blank st -> wf (born st).
  Proof.
    intros b n. destruct (born_facts st n b) as (s & _ & i & _). split; [exact i|]. destruct s as (_ & _ & _ & e & _). rewrite e. apply (b n).
  Qed.
  Lemma fold_wf ops : forall st, wf st -> wf (fold_left step ops st) /\ forall n, static (st n) (fold_left step ops st n) /\ (x_keys (st n) <> None -> x_keys (fold_left step ops st n) <> None).
  Proof.
    induction ops as [|o ops IH]; intros st w; [split; [exact w|intros n; split; [apply static_refl|auto]]|].
    cbn [fold_left]. destruct (IH _ (wf_step st o w)) as [w' h]. split; [exact w'|]. intros n.
    destruct (step_shape st o n w) as (s & _ & k & _). destruct (h n) as [s' k']. split; [exact (static_trans _ _ _ s s')|auto].
  Qed.
  Lemma run_wf st ops : blank st -> wf (run st ops) /\ forall n, static (st n) (run st ops n) /\ (x_entity (st n) = true -> x_keys (run st ops n) <> None).
  Proof.
    intros b. destruct (fold_wf ops _ (born_wf st b)) as [w h]. split; [exact w|]. intros n. destruct (h n) as [s k].
    destruct (born_facts st n b) as (s0 & _ & _ & _ & e). split; [exact (static_trans _ _ _ s0 s)|]. intros i. apply k. destruct (e i) as [-> _]. discriminate.
  Qed.
  Lemma run_app st ops ops' : run st (ops ++ ops') = fold_left step ops' (run st ops).
  Proof. unfold Ix_Model.run. apply fold_left_app. Qed.

  (** ** names *)
  Lemma named_cname st : wf st -> forall n fuel, n < fuel -> named st n (cname_of fuel st n).
  Proof.
    intros w n. induction n as [n IH] using lt_wf_ind. intros [|f] h; [lia|]. cbn [cname_of].
    assert (own_name (st n) = x_data (st n) k_name) as -> by (apply or_coh, ni_coh, w).
    destruct (x_parent (st n)) as [p|] eqn:e; [|apply named_top; exact e].
    apply (named_in st n p); [exact e|]. pose proof (proj2 (w n) p e). apply IH; lia.
  Qed.
  Lemma named_fun st n c : named st n c -> forall c', named st n c' -> c = c'.
  Proof.
    induction 1 as [n e|n p c e _ IH]; intros c' h'; inversion h' as [n' e'|n' p' c0 e' h0]; subst; try congruence.
    assert (p' = p) as -> by congruence. rewrite (IH _ h0). reflexivity.
  Qed.
  (** the name depends on the names of the instance and of those around it only *)
  Lemma named_ext st st' n c : named st n c -> (forall m, x_parent (st' m) = x_parent (st m)) ->
    (forall m, m = n \/ around st m n -> x_data (st' m) k_name = x_data (st m) k_name) -> named st' n c.
  Proof.
    intros h hp. induction h as [n e|n p c e _ IH]; intros hn.
    - rewrite <- (hn n (or_introl eq_refl)). apply named_top. rewrite hp. exact e.
    - rewrite <- (hn n (or_introl eq_refl)). apply (named_in st' n p); [rewrite hp; exact e|]. apply IH. intros m [->|a]; apply hn; right.
      + apply around_parent. exact e.
      + exact (around_more _ _ _ _ e a).
  Qed.
  Lemma around_lt st : wf st -> forall m n, around st m n -> m < n.
  Proof.
    intros w m n a. induction a as [n p e|n p q e a IH]; pose proof (proj2 (w n) p e); lia.
  Qed.
  Lemma around_is_parent st m n : around st m n -> exists x, x_parent (st x) = Some m.
  Proof. induction 1 as [n p e|n p q e a IH]; [exists n; exact e|exact IH]. Qed.

  Lemma instance_text_right st n : wf st -> has_text st n (instance_text n st).
  Proof.
    intros w. exists (cname_of (S n) st n). split; [apply named_cname; [exact w|lia]|]. unfold instance_text. do 4 f_equal. f_equal. f_equal.
    apply map_ext. intros k. rewrite (or_coh _ k (ni_coh _ (proj1 (w n)))). reflexivity.
  Qed.
  Lemma to_str_none st n : x_str (st n) = None -> x_entity (st n) = false -> fst (to_str n st) = Ok (instance_text n st).
  Proof. intros e f. unfold to_str. rewrite e, f. reflexivity. Qed.
  Lemma to_str_some st n t : x_str (st n) = Some t -> fst (to_str n st) = Ok t.
  Proof. intros e. unfold to_str. rewrite e. reflexivity. Qed.
  Lemma has_text_ext st st' n t : has_text st n t -> (forall m, x_parent (st' m) = x_parent (st m)) -> static (st n) (st' n) ->
    same_data (st n) (st' n) -> (forall m, around st m n -> x_data (st' m) k_name = x_data (st m) k_name) -> has_text st' n t.
  Proof.
    intros (c & h & ->) hp s d ha. exists c. split; [apply (named_ext st st' n c h hp); intros m [->|a]; [apply d|apply ha, a]|].
    destruct s as (_ & _ & -> & _ & -> & _). do 4 f_equal. f_equal. f_equal. apply map_ext. intros k. rewrite d. reflexivity.
  Qed.

  (** the name of a parent is not touched by [ops] *)
  Definition parents_keep_names (st : insts) (ops : list op) : Prop :=
    forall p v, In (SetItem p k_name v) ops -> forall n, x_parent (st n) <> Some p.

  Lemma texts_right ops : forall st, wf st -> parents_keep_names st ops ->
    (forall n t, x_entity (st n) = false -> x_str (st n) = Some t -> has_text st n t) ->
    forall n t, x_entity (st n) = false -> x_str (fold_left step ops st n) = Some t -> has_text (fold_left step ops st) n t.
  Proof.
    induction ops as [|o ops IH]; intros st w hp ht; [exact ht|]. cbn [fold_left]. intros n t he.
    assert (forall m, static (st m) (step st o m)) as hs by (intros m; apply (step_shape st o m w)).
    apply IH.
    - apply wf_step, w.
    - intros p v i m. destruct (hs m) as (_ & _ & _ & -> & _). exact (hp p v (or_intror i) m).
    - clear n t he. intros n t he et. destruct (hs n) as (e1 & _). rewrite e1 in he.
      destruct (step_shape st o n w) as (s & _ & _ & [[d h]|h] & _); [|congruence].
      apply (has_text_ext st); [| intros m; destruct (hs m) as (_ & _ & _ & -> & _); reflexivity | exact s | exact d |].
      + destruct h as [h|[h|[(_ & _ & _ & h)|h]]]; [apply ht; congruence|congruence| |congruence].
        rewrite et in h. injection h as ->. apply instance_text_right, w.
      + intros m a. apply (step_shape st o m w). intros v ->. destruct (around_is_parent _ _ _ a) as [x hx]. exact (hp m v (or_introl eq_refl) x hx).
    - destruct (hs n) as (-> & _). exact he.
  Qed.

  (** ** a name around an instance changes its name *)
  Lemma shown_differ st st' p : (forall m, x_parent (st' m) = x_parent (st m)) ->
    (forall m, m <> p -> x_data (st' m) k_name = x_data (st m) k_name) ->
    shown (x_data (st' p) k_name) <> shown (x_data (st p) k_name) -> wf st ->
    forall n c c', p = n \/ around st p n -> named st n c -> named st' n c' -> shown c <> shown c'.
  Proof.
    intros hp hn hd w n c c' h hc. revert c' h. induction hc as [n e|n q c e hc IH]; intros c' h hc'.
    - inversion hc' as [n' e'|n' p' c0 e' h0]; subst; [|rewrite hp in e'; congruence]. destruct h as [->|a]; [congruence|].
      inversion a; congruence.
    - inversion hc' as [n' e'|n' p' c0 e' h0]; subst; [rewrite hp in e'; congruence|]. assert (p' = q) as -> by (rewrite hp in e'; congruence).
      cbn [shown]. destruct h as [->|a].
      + assert (named st' q c) as h1.
        { apply (named_ext st st' q c hc hp). intros m hm. apply hn. pose proof (proj2 (w n) q e). destruct hm as [->|a]; [lia|]. pose proof (around_lt st w _ _ a). lia. }
        rewrite (named_fun st' q c h1 c0 h0). intros eq. apply app_inv_head in eq. injection eq as eq. congruence.
      + assert (n <> p) as np. { pose proof (around_lt st w _ _ a). lia. }
        rewrite (hn n np). intros eq. change (chars ".") with ["."%char] in eq. rewrite !app_assoc in eq. apply app_inv_tail in eq. apply app_inv_tail in eq.
        revert eq. apply (IH c0); [|exact h0]. inversion a as [? ? e1|? ? ? e1 a1]; subst; [left|right]; [congruence|].
        assert (p0 = q) as <- by congruence. exact a1.
  Qed.

  Lemma joined_head sep x y l : joined sep (x :: l) = joined sep (y :: l) -> x = y.
  Proof. destruct l as [|z l]; cbn [joined]; [auto|]. apply app_inv_tail. Qed.

  Lemma has_text_differ st st' n t : x_parent (st n) <> None -> static (st n) (st' n) -> same_data (st n) (st' n) ->
    (forall c c', named st n c -> named st' n c' -> shown c <> shown c') -> has_text st n t -> ~ has_text st' n t.
  Proof.
    intros hp s d hd (c & hc & ->) (c' & hc' & eq). apply (hd c c' hc hc'). pose proof s as (_ & _ & e1 & e2 & e3 & _).
    rewrite e1, e3 in eq. apply app_inv_head in eq. apply app_inv_head in eq. apply app_inv_head in eq. apply app_inv_tail in eq.
    assert (forall k, x_data (st' n) k = x_data (st n) k) as d' by exact d.
    rewrite (map_ext (fun k => chars k ++ chars "=" ++ shown (x_data (st' n) k)) (fun k => chars k ++ chars "=" ++ shown (x_data (st n) k))) in eq by (intros k; rewrite d'; reflexivity).
    inversion hc as [? h|? p c0 h h0]; subst; [congruence|]. inversion hc' as [? h'|? p' c0' h' h0']; subst; [rewrite e2 in h'; congruence|].
    assert (forall a b : str, exists x r, a ++ chars "." ++ b = x :: r) as hne.
    { intros [|x a] b; [exists "."%char, b; reflexivity|exists x, (a ++ chars "." ++ b); reflexivity]. }
    destruct (hne (shown c0) (shown (x_data (st n) k_name))) as (x & r & ex). destruct (hne (shown c0') (shown (x_data (st' n) k_name))) as (x' & r' & ex').
    rewrite ex, ex' in *. cbn [app shown] in *. exact (joined_head _ _ _ _ eq).
  Qed.
End Literal.
