(** C100: the text, the canonical name and the identity keys of instances follow their values, as far as they do. *)
From Verif Require Import Ix_Proofs.
From Coq Require Import Lia.

Section Theorems.
  Variable ev : str -> str.
  Variable is_expr : str -> bool.
  Hypothesis literal : forall r, ev r = r.       (* values are plain texts *)
  Notation run := (run ev is_expr).
  Notation step := (step ev is_expr).

  (** ** texts of instances *)

  (** As long as no instance with others inside it is renamed, the text asked of an instance shows its name and values as they are. *)
  Theorem instance_text_current st ops n : blank st -> x_entity (st n) = false ->
    (forall p v, In (SetItem p "name" v) ops -> forall m, x_parent (st m) <> Some p) ->
    exists t, fst (to_str n (run st ops)) = Ok t /\ has_text (run st ops) n t.
  Proof.
    intros b he hk. destruct (run_wf ev is_expr literal st ops b) as [w h]. destruct (h n) as [s _].
    assert (x_entity (run st ops n) = false) as he' by (destruct s as (-> & _); exact he).
    destruct (x_str (run st ops n)) as [t|] eqn:e.
    - exists t. split; [apply to_str_some, e|]. refine (texts_right ev is_expr literal ops (born ev is_expr st) (born_wf ev is_expr literal st b) _ _ n t _ e).
      + intros p v i m. destruct (born_facts ev is_expr literal st m b) as ((_ & _ & _ & -> & _) & _). exact (hk p v i m).
      + intros m t' _ et. destruct (born_facts ev is_expr literal st m b) as (_ & _ & _ & e0 & _). congruence.
      + destruct (born_facts ev is_expr literal st n b) as ((-> & _) & _). exact he.
    - exists (instance_text n (run st ops)). split; [apply to_str_none; assumption|]. apply instance_text_right, w.
  Qed.

  (** Whatever happened before, the text asked after one of its own values changed shows its name and values as they are. *)
  Theorem instance_text_after_change st ops n k v : blank st -> x_entity (st n) = false -> k <> "identityKeys" ->
    x_data (run st ops n) k <> v ->
    exists t, fst (to_str n (run st (ops ++ [SetItem n k v]))) = Ok t /\ has_text (run st (ops ++ [SetItem n k v])) n t.
  Proof.
    intros b he hk hv. destruct (run_wf ev is_expr literal st (ops ++ [SetItem n k v]) b) as [w h]. destruct (h n) as [s _].
    exists (instance_text n (run st (ops ++ [SetItem n k v]))). split; [|apply instance_text_right, w].
    apply to_str_none; [|destruct s as (-> & _); exact he]. rewrite run_app. cbn [fold_left Ix_Model.step]. rewrite put_same.
    unfold set_item. destruct (eq_dec k k_ids) as [->|_]; [exfalso; apply hk; reflexivity|].
    destruct (set_data_facts k v (run st ops n)) as (_ & _ & _ & _ & diff). specialize (diff (fun e => hv (eq_sym e))).
    destruct (x_lazy (run st ops n)); [apply diff|]. rewrite (proj1 (proj2 (proj2 (evaluate_quiet ev is_expr literal k _)))). apply diff.
  Qed.

  Lemma rename_facts st ops p v n : blank st -> around st p n -> shown v <> shown (x_data (run st ops p) "name") ->
    run st (ops ++ [SetItem p "name" v]) n = run st ops n /\
    (forall c c', named (run st ops) n c -> named (run st (ops ++ [SetItem p "name" v])) n c' -> shown c <> shown c') /\
    x_parent (run st ops n) <> None.
  Proof.
    intros b a hv. destruct (run_wf ev is_expr literal st ops b) as [w h]. rewrite run_app. cbn [fold_left].
    assert (around (run st ops) p n) as a'.
    { clear hv. induction a as [n p e|n p q e a IH]; destruct (h n) as [(_ & _ & _ & e' & _) _].
      - apply around_parent. congruence.
      - apply (around_more _ n p q); [congruence|exact IH]. }
    pose proof (around_lt _ w _ _ a') as lt. split; [apply step_other; cbn; lia|]. split.
    - intros c c'. apply (shown_differ (run st ops) (step (run st ops) (SetItem p "name" v)) p).
      + intros m. destruct (step_shape ev is_expr literal (run st ops) (SetItem p "name" v) m w) as ((_ & _ & _ & e & _) & _). exact e.
      + intros m hm. apply (step_shape ev is_expr literal (run st ops) (SetItem p "name" v) m w). intros v' [= e _]. congruence.
      + cbn [Ix_Model.step]. rewrite put_same. unfold set_item. destruct (eq_dec "name" k_ids) as [e|_]; [discriminate|].
        destruct (set_data_facts "name" v (run st ops p)) as (_ & _ & d & _).
        destruct (x_lazy (run st ops p)); [|rewrite (proj1 (proj2 (evaluate_quiet ev is_expr literal "name" _)) k_name)];
          rewrite d; (destruct (eq_dec k_name "name") as [_|ne]; [exact hv|exfalso; apply ne; reflexivity]).
      + exact w.
      + right. exact a'.
    - inversion a'; congruence.
  Qed.

  (** Renaming an instance around leaves the text already asked as it was: right before, it is wrong afterwards. *)
  Theorem text_after_rename_around_refuted st ops n p v t : blank st -> around st p n ->
    shown v <> shown (x_data (run st ops p) "name") ->
    let before := run st (ops ++ [AskText n]) in
    fst (to_str n before) = Ok t -> has_text before n t ->
    let after := run st (ops ++ [AskText n; SetItem p "name" v]) in
    fst (to_str n after) = Ok t /\ ~ has_text after n t.
  Proof.
    intros b a hv before e ht after.
    assert (after = run st ((ops ++ [AskText n]) ++ [SetItem p "name" v])) as ea by (unfold after; rewrite <- app_assoc; reflexivity).
    rewrite ea. clear ea after.
    assert (shown v <> shown (x_data (run st (ops ++ [AskText n]) p) "name")) as hv'.
    { rewrite run_app. cbn [fold_left]. destruct (run_wf ev is_expr literal st ops b) as [w _].
      destruct (step_shape ev is_expr literal (run st ops) (AskText n) p w) as (_ & _ & _ & _ & h). change "name" with k_name. rewrite h by discriminate. exact hv. }
    destruct (rename_facts st (ops ++ [AskText n]) p v n b a hv') as (e1 & e2 & e3). fold before in e1, e2, e3. split.
    - assert (x_str (before n) = Some t) as es.
      { revert e. unfold to_str. destruct (x_str (before n)) as [t'|] eqn:es; [intros [= ->]; reflexivity|]. exfalso. revert es.
        unfold before. rewrite run_app. cbn [fold_left Ix_Model.step]. unfold to_str at 1. destruct (x_str (run st ops n)) as [t'|] eqn:es'; [cbn; congruence|].
        destruct (run_wf ev is_expr literal st ops b) as [w h]. destruct (x_entity (run st ops n)) eqn:ee.
        - rewrite entity_text_is. destruct (h n) as [(h1 & _) h2]. destruct (x_keys (run st ops n)); [cbn; rewrite put_same; discriminate|].
          exfalso. apply h2; congruence.
        - cbn. rewrite put_same. discriminate. }
      apply to_str_some. rewrite e1. exact es.
    - apply (has_text_differ before _ n t e3); [rewrite e1; apply static_refl|rewrite e1; intros k; reflexivity|exact e2|exact ht].
  Qed.

  (** ** canonical names *)

  (** Read after its own name changed, the canonical name is the current one. *)
  Theorem canonical_name_after_change st ops n v : blank st -> In "name" (x_cdeps (st n)) -> ~ In "canonicalName" (x_cdeps (st n)) ->
    x_data (run st ops n) "name" <> v ->
    named (run st (ops ++ [SetItem n "name" v])) n (fst (read_cname ev is_expr n (run st (ops ++ [SetItem n "name" v])))).
  Proof.
    intros b i ni hv. destruct (run_wf ev is_expr literal st (ops ++ [SetItem n "name" v]) b) as [w h]. destruct (h n) as [s _].
    set (st1 := run st (ops ++ [SetItem n "name" v])) in *.
    assert (x_val (st1 n) k_cname = None) as hv1.
    { unfold st1. rewrite run_app. cbn [fold_left Ix_Model.step]. rewrite put_same. unfold set_item. destruct (eq_dec "name" k_ids); [discriminate|].
      destruct (set_data_facts "name" v (run st ops n)) as (_ & _ & _ & _ & diff). destruct (diff (fun e => hv (eq_sym e))) as (_ & _ & _ & d & _).
      destruct (run_wf ev is_expr literal st ops b) as [_ h0]. destruct (h0 n) as [(_ & _ & _ & _ & _ & _ & _ & ec) _]. rewrite ec in d.
      destruct (x_lazy (run st ops n)); [exact (d i)|]. rewrite evaluate_val_other by discriminate. exact (d i). }
    unfold read_cname. assert (x_cdeps (st1 n) = x_cdeps (st n)) as ec by apply s. rewrite ec.
    pose proof (read_items_quiet ev is_expr literal (x_cdeps (st n)) (st1 n)) as q. pose proof (read_items_coh ev is_expr literal (x_cdeps (st n)) (st1 n) (ni_coh _ (proj1 (w n)))) as c0.
    pose proof (read_items_val_other ev is_expr (x_cdeps (st n)) k_cname (st1 n) ni) as hv2.
    set (nd0 := snd (read_items ev is_expr (x_cdeps (st n)) (st1 n))) in *. clearbody nd0. rewrite hv2, hv1. cbn [fst].
    rewrite (evaluate_val ev is_expr literal _ _ (set_data_coh k_cname _ nd0 c0)).
    destruct (set_data_facts k_cname (cname_of (S n) (put st1 n nd0) n) nd0) as (_ & _ & d & _). rewrite d. destruct (eq_dec k_cname k_cname) as [_|ne]; [|congruence].
    assert (wf (put st1 n nd0)) as w0.
    { intros m. destruct (Nat.eq_dec m n) as [->|ne]; [rewrite put_same|rewrite put_other by exact ne; apply w].
      split; [exact (ninv_quiet _ _ q c0 (proj1 (w n)))|]. destruct q as ((_ & _ & _ & ep & _) & _). rewrite ep. apply (w n). }
    apply (named_ext (put st1 n nd0)); [apply named_cname; [exact w0|lia]| |].
    - intros m. destruct (Nat.eq_dec m n) as [->|ne]; [rewrite put_same; symmetry; apply q|rewrite put_other by exact ne; reflexivity].
    - intros m _. destruct (Nat.eq_dec m n) as [->|ne]; [rewrite put_same; symmetry; apply q|rewrite put_other by exact ne; reflexivity].
  Qed.

  (** Once read, it stays what it was when an instance around is renamed: right before, it is wrong afterwards. *)
  Theorem canonical_name_after_rename_around_refuted st ops n p v c : blank st -> around st p n ->
    shown v <> shown (x_data (run st ops p) "name") ->
    x_val (run st ops n) "canonicalName" = Some c -> named (run st ops) n (Some c) ->
    let after := run st (ops ++ [SetItem p "name" v]) in
    fst (read_cname ev is_expr n after) = Some c /\ ~ named after n (Some c).
  Proof.
    intros b a hv hc hn after. destruct (rename_facts st ops p v n b a hv) as (e1 & e2 & _). fold after in e1, e2. split.
    - unfold read_cname. rewrite e1. rewrite (read_items_val_some ev is_expr (x_cdeps (run st ops n)) k_cname c (run st ops n) hc). reflexivity.
    - intros h. exact (e2 (Some c) (Some c) hn h eq_refl).
  Qed.

  (** ** identity keys *)

  (** When what the class depends on covers the primary keys, reading the identity keys gives the current values, after any history. *)
  Theorem identity_keys_current st ops n : blank st -> incl (x_pks (st n)) (x_kdeps (st n)) ->
    fst (read_ids ev is_expr (run st ops n)) = Some (keys_now (run st ops n)).
  Proof.
    intros b i. destruct (run_wf ev is_expr literal st ops b) as [w h]. destruct (w n) as [ni _]. destruct (h n) as [(_ & _ & _ & _ & _ & e1 & e2 & _) _].
    destruct (read_ids_facts ev is_expr literal (run st ops n) (ni_coh _ ni)) as (_ & _ & _ & m). destruct (x_ids (run st ops n)) as [l|] eqn:e; [|apply m].
    destruct m as (-> & _). f_equal. apply (ni_now _ ni); [exact e|]. rewrite e1, e2. exact i.
  Qed.

  (** Primary keys given when the entity is made, to a class without any: the identity keys are those of its making for ever. *)
  Theorem identity_keys_given_refuted st ops n : blank st -> x_entity (st n) = true -> x_kdeps (st n) = [] ->
    fst (read_ids ev is_expr (run st ops n)) = Some (keys_now (st n)).
  Proof.
    intros b he hk. destruct (run_wf ev is_expr literal st ops b) as [w h]. destruct (w n) as [ni _].
    destruct (read_ids_facts ev is_expr literal (run st ops n) (ni_coh _ ni)) as (_ & _ & _ & m).
    assert (x_ids (run st ops n) = Some (keys_now (st n))) as e; [|rewrite e in m; apply m]. clear ni m h w.
    induction ops as [|o ops IH] using rev_ind; [destruct (born_facts ev is_expr literal st n b) as (_ & _ & _ & _ & h); apply h, he|].
    rewrite run_app. cbn [fold_left]. destruct (run_wf ev is_expr literal st ops b) as [w h]. destruct (w n) as [ni _]. destruct (h n) as [s _].
    assert (x_kdeps (run st ops n) = []) as hk' by (destruct s as (_ & _ & _ & _ & _ & _ & -> & _); exact hk).
    destruct (Nat.eq_dec n (touched o)) as [e|ne]; [|rewrite (step_other ev is_expr _ _ n ne); exact IH].
    assert (forall k v nd, x_kdeps nd = [] -> x_ids (set_data k v nd) = x_ids nd) as hset.
    { intros k v nd hd. destruct (set_data_facts k v nd) as (_ & _ & _ & same & diff). destruct (eq_dec v (x_data nd k)) as [e0|ne]; [apply (same e0)|].
      destruct (diff ne) as (_ & d & _). rewrite d, hd. reflexivity. }
    destruct o as [m k v|m k|m|m|m]; cbn [touched] in e; subst m.
    - cbn [Ix_Model.step]. rewrite put_same. unfold set_item. destruct (eq_dec k k_ids); [exact IH|].
      destruct (x_lazy (run st ops n)); [|rewrite (proj1 (proj2 (proj2 (proj2 (evaluate_quiet ev is_expr literal k _)))))]; rewrite hset by exact hk'; exact IH.
    - cbn [Ix_Model.step]. rewrite put_same. rewrite (proj1 (proj2 (proj2 (proj2 (read_item_quiet ev is_expr literal k _))))). exact IH.
    - cbn [Ix_Model.step]. rewrite put_same. destruct (read_ids_facts ev is_expr literal (run st ops n) (ni_coh _ ni)) as (_ & _ & _ & m).
      rewrite IH in m. apply m.
    - cbn [Ix_Model.step]. destruct (read_cname_facts ev is_expr literal n (run st ops) (ni_coh _ ni)) as (nd & -> & hh). rewrite put_same.
      destruct hh as [[(_ & _ & _ & e & _) _]|(nd0 & (s0 & _ & _ & e & _) & _ & ->)]; [congruence|].
      rewrite (proj1 (proj2 (proj2 (proj2 (evaluate_quiet ev is_expr literal k_cname _))))), hset; [congruence|].
      destruct s0 as (_ & _ & _ & _ & _ & _ & -> & _). exact hk'.
    - cbn [Ix_Model.step]. unfold to_str. destruct (x_str (run st ops n)); [exact IH|].
      destruct (if x_entity (run st ops n) then entity_text (run st ops n) else Ok (instance_text n (run st ops))); [cbn; rewrite put_same|]; exact IH.
  Qed.

  (** ** texts of entities *)

  (** Asking for the text of an entity never fails, and after reading its identity keys it shows them as they are. *)
  Theorem entity_text_after_reading st ops n : blank st -> x_entity (st n) = true -> incl (x_pks (st n)) (x_kdeps (st n)) ->
    (exists t, fst (to_str n (run st ops)) = Ok t) /\
    let after := run st (ops ++ [ReadIds n]) in fst (to_str n after) = Ok (keys_text (after n) (keys_now (after n))).
  Proof.
    intros b he i. split.
    - destruct (run_wf ev is_expr literal st ops b) as [w h]. destruct (h n) as [(s & _) hk]. unfold to_str. destruct (x_str (run st ops n)) as [t|]; [exists t; reflexivity|].
      rewrite s, he, entity_text_is. destruct (x_keys (run st ops n)) as [ks|]; [exists (keys_text (run st ops n) ks); reflexivity|]. exfalso. exact (hk he eq_refl).
    - intros after. destruct (run_wf ev is_expr literal st (ops ++ [ReadIds n]) b) as [w h]. fold after in w, h. destruct (w n) as [ni _]. destruct (h n) as [s _].
      pose proof s as (e0 & _ & _ & _ & _ & e1 & e2 & _).
      assert (exists l, x_ids (after n) = Some l) as [l hl].
      { unfold after. rewrite run_app. cbn [fold_left Ix_Model.step]. rewrite put_same. destruct (run_wf ev is_expr literal st ops b) as [w0 _].
        destruct (read_ids_facts ev is_expr literal (run st ops n) (ni_coh _ (proj1 (w0 n)))) as (_ & _ & _ & m). destruct (x_ids (run st ops n)); eexists; apply m. }
      assert (l = keys_now (after n)) as -> by (apply (ni_now _ ni); [exact hl|rewrite e1, e2; exact i]).
      pose proof (ni_keys _ ni _ hl) as hk. unfold to_str. destruct (x_str (after n)) as [t|] eqn:et.
      + destruct (ni_text _ ni t) as (ks & g1 & ->); [congruence|exact et|]. cbn. do 2 f_equal. congruence.
      + rewrite e0, he, entity_text_is, hk. reflexivity.
  Qed.

  (** A primary key changed since the identity keys were read: the text shows the old one. *)
  Theorem entity_text_after_change_refuted st ops n k v : blank st -> x_entity (st n) = true -> x_pks (st n) = [k] -> In k (x_kdeps (st n)) -> k <> "identityKeys" ->
    let before := run st (ops ++ [ReadIds n]) in
    shown v <> shown (x_data (before n) k) ->
    let after := run st (ops ++ [ReadIds n; SetItem n k v]) in
    fst (to_str n after) = Ok (keys_text (before n) [x_data (before n) k]) /\
    keys_now (after n) = [v] /\ keys_text (before n) [x_data (before n) k] <> keys_text (after n) (keys_now (after n)).
  Proof.
    intros b he hp hk hk' before hv after.
    assert (after = run st ((ops ++ [ReadIds n]) ++ [SetItem n k v])) as ea by (unfold after; rewrite <- app_assoc; reflexivity).
    destruct (run_wf ev is_expr literal st (ops ++ [ReadIds n]) b) as [w h]. fold before in w, h. destruct (w n) as [ni _]. destruct (h n) as [(e0 & _ & _ & _ & _ & e1 & e2 & _) _].
    assert (x_keys (before n) = Some [x_data (before n) k]) as hkeys.
    { assert (exists l, x_ids (before n) = Some l) as [l hl].
      { unfold before. rewrite run_app. cbn [fold_left Ix_Model.step]. rewrite put_same. destruct (run_wf ev is_expr literal st ops b) as [w0 _].
        destruct (read_ids_facts ev is_expr literal (run st ops n) (ni_coh _ (proj1 (w0 n)))) as (_ & _ & _ & m). destruct (x_ids (run st ops n)); eexists; apply m. }
      rewrite (ni_keys _ ni _ hl), (ni_now _ ni _ hl); [unfold keys_now; rewrite e1, hp; reflexivity|]. rewrite e1, e2, hp. intros x [->|[]]. exact hk. }
    assert (after n = set_item ev is_expr k v (before n)) as en.
    { rewrite ea, run_app. fold before. cbn [fold_left Ix_Model.step]. apply put_same. }
    unfold set_item in en. destruct (eq_dec k k_ids) as [->|_]; [exfalso; apply hk'; reflexivity|].
    destruct (set_data_facts k v (before n)) as (s & ek & d & _ & diff). assert (v <> x_data (before n) k) as nv by congruence. destruct (diff nv) as (d1 & _).
    assert (quiet (set_data k v (before n)) (after n)) as (s1 & q1 & q2 & q3 & q4).
    { rewrite en. destruct (x_lazy (before n)); [apply quiet_refl|apply evaluate_quiet, literal]. }
    pose proof (static_trans _ _ _ s s1) as s2. pose proof s2 as (f0 & _ & _ & _ & _ & f1 & _).
    assert (keys_now (after n) = [v]) as hnow.
    { unfold keys_now. rewrite f1, e1, hp. cbn [map]. rewrite q1, d. destruct (eq_dec k k); congruence. }
    split; [|split; [exact hnow|]].
    - unfold to_str. rewrite q2, d1, f0, e0, he, entity_text_is, q4, ek, hkeys. cbn [fst]. rewrite (keys_text_same _ _ _ s2). reflexivity.
    - rewrite hnow, (keys_text_same _ _ _ s2). unfold keys_text. intros eq. apply app_inv_head in eq. apply app_inv_head in eq. apply app_inv_head in eq.
      apply app_inv_tail in eq. cbn in eq. congruence.
  Qed.
End Theorems.

(** The text asked before an expression is evaluated shows the expression, and keeps doing so once the value is known. *)
Theorem expression_text_refuted ev is_expr st n r : blank st -> x_entity (st n) = false -> x_parent (st n) = None -> x_required (st n) = [] ->
  x_data (st n) "name" = Some r -> r <> [] -> ev r <> r ->
  let after := run ev is_expr st [AskText n; ReadItem n "name"] in
  fst (read_item ev is_expr "name" (after n)) = Some (ev r) /\
  fst (to_str n after) = Ok (chars "<" ++ x_qual (st n) ++ chars " " ++ r ++ chars ">").
Proof.
  intros b he hp hr hd hne _ after. destruct (b n) as (b1 & _ & _ & b4 & _).
  assert (born ev is_expr st n = st n) as eb by (unfold born; rewrite he; reflexivity).
  set (t := chars "<" ++ x_qual (st n) ++ chars " " ++ r ++ chars ">").
  assert (run ev is_expr st [AskText n] n = with_str (Some t) (st n)) as e1.
  { unfold run. cbn [fold_left step]. unfold to_str. rewrite eb, b4, he. cbn [snd]. rewrite put_same. do 2 f_equal. unfold instance_text, t. cbn [cname_of]. rewrite eb, hp, hr.
    unfold own_name. rewrite b1. change k_name with "name". rewrite hd. cbn [py_or]. destruct r; [congruence|]. reflexivity. }
  assert (after n = snd (read_item ev is_expr "name" (run ev is_expr st [AskText n] n))) as e2.
  { unfold after. change [AskText n; ReadItem n "name"] with ([AskText n] ++ [ReadItem n "name"]). rewrite run_app. cbn [fold_left step]. apply put_same. }
  rewrite e1 in e2. unfold read_item in e2. cbn [x_val with_str snd] in e2. rewrite b1 in e2. unfold evaluate in e2. cbn [x_data with_str] in e2. rewrite hd in e2. cbv iota beta in e2. split.
  - unfold read_item. rewrite e2. cbn. reflexivity.
  - apply to_str_some. rewrite e2. reflexivity.
Qed.

(** An expression whose value is empty is shown itself, even when its value is known. *)
Theorem empty_value_text_refuted ev is_expr st n r : blank st -> x_entity (st n) = false -> x_parent (st n) = None -> x_required (st n) = [] ->
  x_data (st n) "name" = Some r -> is_expr r = true -> r <> [] -> ev r = [] ->
  let after := run ev is_expr st [ReadItem n "name"] in
  fst (read_item ev is_expr "name" (after n)) = Some [] /\
  fst (to_str n after) = Ok (chars "<" ++ x_qual (st n) ++ chars " " ++ r ++ chars ">").
Proof.
  intros b he hp hr hd hx hne hev after. destruct (b n) as (b1 & _ & _ & b4 & _).
  assert (after n = snd (read_item ev is_expr "name" (st n))) as e2.
  { unfold after, run. cbn [fold_left step]. rewrite put_same. unfold born. rewrite he. reflexivity. }
  unfold read_item in e2. cbn [snd] in e2. rewrite b1 in e2. unfold evaluate in e2. rewrite hd, hev, hx in e2. split.
  - unfold read_item. rewrite e2. reflexivity.
  - unfold to_str. rewrite e2. cbn [x_str with_val with_data x_entity]. rewrite b4, he. cbn [fst]. f_equal. unfold instance_text. cbn [cname_of]. rewrite e2. cbn [x_parent x_required x_qual with_val with_data].
    rewrite hp, hr. unfold own_name. cbn [x_val x_data with_val with_data]. change k_name with "name". rewrite !upd_same. cbn [py_or]. destruct r; [congruence|]. reflexivity.
Qed.

(** Inside an instance without a name, the canonical name starts with the word None: it is that of an instance inside one named so. *)
Theorem unnamed_around_refuted ev is_expr st n p r : (forall t, ev t = t) -> blank st -> x_cdeps (st n) = ["name"] -> x_parent (st n) = Some p -> x_parent (st p) = None ->
  x_entity (st n) = false -> x_entity (st p) = false -> x_data (st p) "name" = None \/ x_data (st p) "name" = Some (chars "None") -> x_data (st n) "name" = Some r ->
  fst (read_cname ev is_expr n (run ev is_expr st [])) = Some (chars "None." ++ r).
Proof.
  intros literal b hc hp hpp he hep hn hr. unfold run. cbn [fold_left]. set (s := born ev is_expr st).
  assert (s n = st n) as en by (unfold s, born; rewrite he; reflexivity). assert (s p = st p) as ep by (unfold s, born; rewrite hep; reflexivity).
  destruct (b n) as (b1 & _ & _ & _ & lt). destruct (b p) as (c1 & _). pose proof (lt p hp) as ltp.
  assert (coh (st n)) as co by (intros k; left; apply b1).
  unfold read_cname. rewrite en, hc. pose proof (read_items_quiet ev is_expr literal ["name"] (st n)) as q. pose proof (read_items_coh ev is_expr literal ["name"] (st n) co) as c0.
  pose proof (read_items_val_other ev is_expr ["name"] k_cname (st n)) as hv.
  set (nd0 := snd (read_items ev is_expr ["name"] (st n))) in *. clearbody nd0. rewrite hv by (intros [h|[]]; discriminate). rewrite b1. cbn [fst].
  rewrite (evaluate_val ev is_expr literal _ _ (set_data_coh k_cname _ nd0 c0)).
  destruct (set_data_facts k_cname (cname_of (S n) (put s n nd0) n) nd0) as (_ & _ & d & _). rewrite d. destruct (eq_dec k_cname k_cname) as [_|ne]; [|congruence].
  destruct q as ((_ & _ & _ & qp & _) & qd & _). cbn [cname_of]. rewrite put_same, qp, hp.
  unfold own_name at 1. rewrite (or_coh _ _ c0), qd. change k_name with "name". rewrite hr.
  destruct n as [|f]; [lia|]. cbn [cname_of]. rewrite put_other by lia. rewrite ep, hpp. unfold own_name. rewrite c1. cbn [py_or]. change k_name with "name".
  destruct hn as [-> | ->]; reflexivity.
Qed.

(** Names, values and keys are separated in the texts: the first one, then each other one after the separator. *)
Theorem texts_separated sep x l : joined sep (x :: l) = x ++ flat_map (fun y => sep ++ y) l.
Proof.
  revert x. induction l as [|y l IH]; intros x; [cbn; symmetry; apply app_nil_r|]. change (joined sep (x :: y :: l)) with (x ++ sep ++ joined sep (y :: l)).
  rewrite IH. cbn [flat_map]. rewrite !app_assoc. reflexivity.
Qed.

(** ** concrete instances: a plant, a pump in it, and an entity without parent keyed by its name *)
Definition ex_node (entity : bool) (parent : option nat) (name : string) (pks kdeps : list string) : node :=
  {| x_entity := entity; x_lazy := false; x_qual := chars "C"; x_parent := parent; x_required := ["tag"]; x_pks := pks; x_kdeps := kdeps; x_cdeps := ["name"];
     x_data := fun k => if eq_dec k "name" then Some (chars name) else if eq_dec k "tag" then Some (chars "T") else None;
     x_val := fun _ => None; x_ids := None; x_keys := None; x_str := None |}.
Definition ex_st : insts := fun n => match n with
  | 0 => ex_node false None "plant" [] []
  | 1 => ex_node false (Some 0) "pump" [] []
  | 2 => ex_node true None "one" ["name"] ["name"]
  | 3 => ex_node true None "two" ["name"] []
  | _ => ex_node false None "x" [] [] end.
Definition ex_ev (r : str) : str := r.
Definition ex_is (r : str) : bool := false.
Example ex_blank : blank ex_st.
Proof.
  intros n. destruct n as [|[|[|[|n]]]]; repeat split; cbn; try congruence; intros p h; try discriminate. injection h as <-. apply Nat.lt_0_succ.
Qed.
Example ex_literal : forall r, ex_ev r = r. Proof. reflexivity. Qed.
Example ex_around : around ex_st 0 1. Proof. apply around_parent. reflexivity. Qed.
Example ex_text : fst (to_str 1 (run ex_ev ex_is ex_st [])) = Ok (chars "<C plant.pump tag=T>"). Proof. reflexivity. Qed.
Example ex_text_changed : fst (to_str 1 (run ex_ev ex_is ex_st [AskText 1; SetItem 1 "tag" (Some (chars "U"))])) = Ok (chars "<C plant.pump tag=U>").
Proof. reflexivity. Qed.
Example ex_text_stale : fst (to_str 1 (run ex_ev ex_is ex_st [AskText 1; SetItem 0 "name" (Some (chars "site"))])) = Ok (chars "<C plant.pump tag=T>").
Proof. reflexivity. Qed.
Example ex_cname : fst (read_cname ex_ev ex_is 1 (run ex_ev ex_is ex_st [SetItem 1 "name" (Some (chars "fan"))])) = Some (chars "plant.fan"). Proof. reflexivity. Qed.
Example ex_cname_stale : fst (read_cname ex_ev ex_is 1 (run ex_ev ex_is ex_st [ReadCname 1; SetItem 0 "name" (Some (chars "site"))])) = Some (chars "plant.pump").
Proof. reflexivity. Qed.
Example ex_cname_kept : x_val (run ex_ev ex_is ex_st [ReadCname 1] 1) "canonicalName" = Some (chars "plant.pump"). Proof. reflexivity. Qed.
Example ex_entity : fst (to_str 2 (run ex_ev ex_is ex_st [])) = Ok (chars "<C one>"). Proof. reflexivity. Qed.
Example ex_entity_stale : fst (to_str 2 (run ex_ev ex_is ex_st [SetItem 2 "name" (Some (chars "won"))])) = Ok (chars "<C one>"). Proof. reflexivity. Qed.
Example ex_entity_read : fst (to_str 2 (run ex_ev ex_is ex_st [SetItem 2 "name" (Some (chars "won")); ReadIds 2])) = Ok (chars "<C won>"). Proof. reflexivity. Qed.
Example ex_given : fst (read_ids ex_ev ex_is (run ex_ev ex_is ex_st [SetItem 3 "name" (Some (chars "too"))] 3)) = Some [Some (chars "two")]. Proof. reflexivity. Qed.
(** an expression, evaluated to something else *)
Definition ex_up (r : str) : str := if eq_dec r (chars "{{n}}") then chars "v" else r.
Definition ex_lazy : insts := fun _ => {| x_entity := false; x_lazy := true; x_qual := chars "C"; x_parent := None; x_required := []; x_pks := []; x_kdeps := []; x_cdeps := ["name"];
  x_data := fun k => if eq_dec k "name" then Some (chars "{{n}}") else None; x_val := fun _ => None; x_ids := None; x_keys := None; x_str := None |}.
Example ex_expression : fst (to_str 0 (run ex_up (fun _ => true) ex_lazy [AskText 0; ReadItem 0 "name"])) = Ok (chars "<C {{n}}>") /\
  blank ex_lazy /\ ex_up (chars "{{n}}") <> chars "{{n}}".
Proof. split; [reflexivity|]. split; [repeat split; discriminate|discriminate]. Qed.

Example ex_unnamed : let st : insts := fun n => match n with 0 => with_data (fun _ => None) (ex_node false None "" [] []) | 1 => ex_node false (Some 0) "pump" [] [] | _ => ex_node false None "x" [] [] end in
  fst (read_cname ex_ev ex_is 1 (run ex_ev ex_is st [])) = Some (chars "None.pump").
Proof. reflexivity. Qed.
Example ex_empty : fst (to_str 0 (run (fun _ => []) (fun _ => true) ex_lazy [ReadItem 0 "name"])) = Ok (chars "<C {{n}}>"). Proof. reflexivity. Qed.

Print Assumptions empty_value_text_refuted.
Print Assumptions unnamed_around_refuted.
Print Assumptions texts_separated.
Print Assumptions instance_text_current.
Print Assumptions instance_text_after_change.
Print Assumptions text_after_rename_around_refuted.
Print Assumptions canonical_name_after_change.
Print Assumptions canonical_name_after_rename_around_refuted.
Print Assumptions identity_keys_current.
Print Assumptions identity_keys_given_refuted.
Print Assumptions entity_text_after_reading.
Print Assumptions entity_text_after_change_refuted.
Print Assumptions expression_text_refuted.
