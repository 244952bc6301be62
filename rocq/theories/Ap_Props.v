(** C94: printing an array shows the items it has when it is first printed; and what it shows later. *)
From Verif Require Import Base PyVal Cmp_Spec Cmp_Proofs Arr_Model Arr_Spec Arr_Proofs Arr_Props Pp_Model Ap_Model Ap_Spec.
From Verif Require Types_Proofs.

Lemma joined_join sep ws : Joined sep ws (join sep ws).
Proof.
  induction ws as [|w ws IH]; [constructor|]. destruct ws as [|w' ws]; [constructor|].
  change (join sep (w :: w' :: ws)) with (w ++ sep ++ join sep (w' :: ws)). constructor. exact IH.
Qed.
Lemma shorten_cut t : Cut t (shorten t).
Proof.
  unfold shorten. destruct (Nat.ltb_spec max_strl (length t)) as [h | h].
  - rewrite <- (firstn_skipn max_strl t) at 1. constructor; [rewrite firstn_length; unfold max_strl in *; lia|].
    intros e. apply (f_equal (@length _)) in e. rewrite skipn_length in e. cbn [length] in e. lia.
  - constructor. unfold max_strl in h. exact h.
Qed.
Lemma shows_of text show_nat vs :
  Shows text show_nat vs (chars "[" ++ join (chars ", ") (map (fun v => shorten (text v)) (firstn max_el vs) ++
      (if Nat.eqb (length vs - max_el) 0 then [] else [chars "+" ++ show_nat (length vs - max_el) ++ chars "..."])) ++ chars "]").
Proof.
  assert (hc : forall l, Forall2 (fun v e => Cut (text v) e) l (map (fun v => shorten (text v)) l)).
  { induction l; cbn [map]; constructor; [apply shorten_cut | assumption]. }
  destruct (Nat.eqb_spec (length vs - max_el) 0) as [h | h]; unfold max_el in *.
  - rewrite app_nil_r, firstn_all2 by lia. apply (s_all text show_nat vs (map (fun v => shorten (text v)) vs)); [lia | apply hc | apply joined_join].
  - rewrite <- (firstn_skipn 10 vs) at 1.
    replace (length vs - 10) with (length (skipn 10 vs)) in * by (rewrite skipn_length; reflexivity).
    apply (s_ten text show_nat _ _ (map (fun v => shorten (text v)) (firstn 10 vs))).
    + rewrite skipn_length in h. rewrite firstn_length. lia.
    + intros e. rewrite e in h. exact (h eq_refl).
    + apply hc.
    + apply joined_join.
Qed.
Lemma each_ok {A B} (f : A -> res B) l ys : Forall2 (fun x y => f x = Ok y) l ys -> each f l = Ok ys.
Proof. induction 1 as [|x y l ys h _ IH]; cbn [each]; [reflexivity|]. rewrite h. cbn [rbind]. rewrite IH. reflexivity. Qed.
Lemma filter_seq n : filter (fun i => Nat.ltb i max_el) (seq 0 n) = seq 0 (Nat.min max_el n).
Proof.
  induction n as [|n IH]; [rewrite Nat.min_0_r; reflexivity|]. rewrite seq_S, filter_app, IH. cbn [plus filter].
  destruct (Nat.ltb_spec n max_el) as [h | h].
  - rewrite !Nat.min_r by lia. rewrite seq_S. reflexivity.
  - rewrite !Nat.min_l by lia. apply app_nil_r.
Qed.

(** the values an array shows *)
Definition shows_values (s : arr) (vs : list pyval) : Prop := length (a_data s) = length vs /\ forall i v, nth_error vs i = Some v -> shown s i = Ok v.
Lemma each_shown text s vs n : shows_values s vs -> n <= length vs ->
  each (fun i => do v <- shown s i; Ok (shorten (text v))) (seq 0 n) = Ok (map (fun v => shorten (text v)) (firstn n vs)).
Proof.
  intros [_ h] hn. apply each_ok. induction n as [|n IH]; [constructor|].
  destruct (nth_error vs n) as [v|] eqn:e; [|apply nth_error_None in e; lia].
  assert (hf : firstn (S n) vs = firstn n vs ++ [v]).
  { clear - e. revert vs e. induction n as [|n IH]; intros [|x vs] e; cbn in *; try discriminate; [congruence|]. f_equal. apply IH. exact e. }
  rewrite seq_S, hf, map_app. apply Forall2_app; [apply IH; lia|]. constructor; [|constructor].
  cbn [plus]. rewrite (h n v e). reflexivity.
Qed.
Lemma list_text_shows text show_nat s vs : shows_values s vs -> exists t, list_text text show_nat None s = Ok t /\ Shows text show_nat vs t.
Proof.
  intros h. eexists. split; [|apply shows_of]. unfold list_text, typed. rewrite filter_seq.
  assert (hl : a_len s = length vs) by (exact (proj1 h)). rewrite hl, (each_shown text s vs) by (auto; lia). cbn [rbind].
  replace (firstn (Nat.min max_el (length vs)) vs) with (firstn max_el vs); [reflexivity|].
  destruct (Nat.le_ge_cases max_el (length vs)); [rewrite Nat.min_l by lia; reflexivity | rewrite Nat.min_r, firstn_all by lia; apply firstn_all2; lia].
Qed.

(** what an array that represents a list shows *)
Lemma rep_shows ev s l : Rep ev s l ->
  exists vs, shows_values s vs /\ Forall2 (fun v w => v = w \/ ev v = Ok w) vs l /\
             (a_val s = l -> Forall2 (fun v w => truthy w = true -> v = w) vs l).
Proof.
  intros [h1 h2]. destruct s as [d v]. cbn in *.
  assert (g : exists vs, length d = length vs /\ (forall i x, nth_error vs i = Some x -> shown {| a_data := d; a_val := v |} i = Ok x) /\
                         Forall2 (fun v w => v = w \/ ev v = Ok w) vs l /\ (v = l -> Forall2 (fun v w => truthy w = true -> v = w) vs l)).
  { revert v h2. induction h1 as [|x w d l hx h1 IH]; intros v h2.
    - inversion h2; subst. exists []. split; [reflexivity|]. split; [intros [|i] y e; discriminate|]. split; constructor.
    - inversion h2 as [|x0 b0 la lb hab hla]; subst. destruct (IH _ hla) as (vs & g1 & g2 & g3 & g4). exists ((if truthy x0 then x0 else x) :: vs).
      split; [cbn; congruence|]. split.
      + intros [|i] y e; cbn [nth_error] in e.
        * injection e as <-. unfold shown. cbn. destruct (truthy x0); reflexivity.
        * unfold shown in *. cbn [a_val a_data nth_error] in *. apply g2. exact e.
      + split.
        * constructor; [|exact g3]. destruct hab as [-> | ->]; [right; exact hx|]. destruct (truthy w); [left; reflexivity | right; exact hx].
        * intros e. injection e as -> ->. constructor; [|apply g4; reflexivity]. intros ->. reflexivity. }
  destruct g as (vs & g1 & g2 & g3 & g4). exists vs. split; [split; assumption|]. split; assumption.
Qed.

(** reading all the items evaluates them all *)
Lemma get_value ev prim expr s l p x : Rep ev s l -> nth_error l p = Some x ->
  exists s', a_get ev prim expr (Z.of_nat p) s = (Ok x, s') /\ nth_error (a_val s') p = Some x /\
             length (a_val s') = length (a_val s) /\ forall q, q <> p -> nth_error (a_val s') q = nth_error (a_val s) q.
Proof.
  intros hr hx. destruct (rep_len _ _ _ hr) as [hl1 hl2]. pose proof hr as [h1 h2].
  assert (hlt : p < length l) by (apply nth_error_Some; congruence).
  assert (hv : exists v, nth_error (a_val s) p = Some v /\ (v = VNone \/ v = x)).
  { destruct (F2_nth _ _ _ p h2) as [(v & w & e1 & e2 & h) | [_ e]]; [|congruence]. exists v. split; [exact e1|]. congruence. }
  destruct hv as (v & hv & hvx). unfold a_get. rewrite (py_get_nth _ _ _ hv).
  assert (hread : v <> VNone -> v = x) by (intros; destruct hvx; congruence).
  destruct v; try (rewrite <- (hread ltac:(discriminate)) in *; exists s; split; [reflexivity|]; split; [exact hv|]; split; [reflexivity | intros; reflexivity]).
  assert (hd : exists d, nth_error (a_data s) p = Some d /\ ev d = Ok x).
  { destruct (F2_nth _ _ _ p h1) as [(d & w & e1 & e2 & h) | [_ e]]; [|congruence]. exists d. split; [exact e1|]. congruence. }
  destruct hd as (d & hd & hdx). unfold a_evaluate. rewrite (py_get_nth _ _ _ hd). cbn [rbind]. rewrite hdx. cbn [rbind].
  unfold a_set_validated. rewrite (py_get_nth _ _ _ hd). cbn [rbind].
  assert (hp1 : py_pos (length (a_data s)) (Z.of_nat p) = Ok p) by (apply py_pos_nat; lia).
  assert (hp2 : py_pos (length (a_val s)) (Z.of_nat p) = Ok p) by (apply py_pos_nat; lia).
  unfold py_set. rewrite hp1, hp2. cbn [rbind].
  set (w := firstn p (a_val s) ++ x :: skipn (S p) (a_val s)).
  assert (hw : nth_error w p = Some x) by (apply nth_put; lia).
  exists {| a_data := if prim && expr d then a_data s else firstn p (a_data s) ++ x :: skipn (S p) (a_data s); a_val := w |}.
  assert (hq : forall q, q <> p -> nth_error w q = nth_error (a_val s) q).
  { intros q hq. unfold w. destruct (Nat.lt_ge_cases q p) as [hlt' | hge].
    - rewrite nth_error_app1 by (rewrite firstn_length; lia). rewrite <- (firstn_skipn p (a_val s)) at 2.
      rewrite nth_error_app1 by (rewrite firstn_length; lia). reflexivity.
    - rewrite nth_error_app2 by (rewrite firstn_length; lia). rewrite firstn_length, Nat.min_l by lia.
      rewrite <- (firstn_skipn (S p) (a_val s)) at 2. rewrite (nth_error_app2 (firstn (S p) (a_val s))) by (rewrite firstn_length; lia).
      rewrite firstn_length, Nat.min_l by lia. destruct (q - p) as [|k] eqn:ek; [lia|]. cbn [nth_error]. f_equal. lia. }
  split; [|split; [exact hw | split; [apply len_put; lia | exact hq]]].
  destruct (prim && expr d); cbn [rbind a_val]; rewrite (py_get_nth _ _ _ hw); reflexivity.
Qed.
Lemma iter_values ev prim expr (hst : Stable ev) l : forall n i s, i + n = length l -> Rep ev s l ->
  exists s', iter_from ev prim expr n i s = (Ok (skipn i l), s') /\ Rep ev s' l /\ length (a_val s') = length l /\
             (forall q, i <= q -> q < length l -> nth_error (a_val s') q = nth_error l q) /\ (forall q, q < i -> nth_error (a_val s') q = nth_error (a_val s) q).
Proof.
  induction n as [|n IH]; intros i s hn hr; cbn [iter_from].
  - exists s. rewrite skipn_all2 by lia. split; [reflexivity|]. split; [exact hr|]. split; [apply (rep_len _ _ _ hr)|]. split; intros q h; [lia | reflexivity].
  - destruct (nth_error l i) as [x|] eqn:e; [|apply nth_error_None in e; lia].
    destruct (get_value ev prim expr s l i x hr e) as (s1 & h1 & h2 & h3 & h4).
    destruct (get_nth ev prim expr hst s l i x hr e) as (s1' & h1' & hr1).
    rewrite h1 in h1'. injection h1' as <-. rewrite h1.
    destruct (IH (S i) s1 ltac:(lia) hr1) as (s2 & g1 & g2 & g3 & g4 & g5). rewrite g1. exists s2.
    rewrite (skipn_nth _ _ _ e). split; [reflexivity|]. split; [exact g2|]. split; [exact g3|]. split.
    + intros q hq hql. destruct (Nat.eq_dec q i) as [-> | hne]; [rewrite g5 by lia; congruence|]. apply g4; lia.
    + intros q hq. rewrite g5 by lia. apply h4. lia.
Qed.
Lemma iter_full ev prim expr (hst : Stable ev) l s : Rep ev s l -> exists s', a_iter ev prim expr s = (Ok l, s') /\ Rep ev s' l /\ a_val s' = l.
Proof.
  intros hr. destruct (rep_len _ _ _ hr) as [_ hl]. unfold a_iter.
  destruct (iter_values ev prim expr hst l (length (a_val s)) 0 s ltac:(lia) hr) as (s' & h1 & h2 & h3 & h4 & _).
  exists s'. split; [exact h1|]. split; [exact h2|]. apply (Types_Proofs.nth_error_ext _ _). intros q.
  destruct (Nat.lt_ge_cases q (length l)) as [h | h]; [apply h4; lia|].
  rewrite (proj2 (nth_error_None l q) h). apply nth_error_None. lia.
Qed.

(** a history without printing *)
Lemma run_ops name text show_nat ev prim expr lz u ops : forall s, p_text s = None ->
  p_run name text show_nat None ev prim expr lz u (map POp ops) s =
  (map Value (fst (a_run ev prim expr lz u ops (p_arr s))), {| p_arr := snd (a_run ev prim expr lz u ops (p_arr s)); p_text := None |}).
Proof.
  induction ops as [|o ops IH]; intros [a t] h; cbn [map p_run a_run p_step p_arr p_text] in *; [subst; reflexivity|].
  destruct (a_step ev prim expr lz u o a) as [r a1]. rewrite IH by exact h. cbn [p_arr].
  destruct (a_run ev prim expr lz u ops a1) as [rs a2]. reflexivity.
Qed.
Lemma run_app name text show_nat ev prim expr lz u o1 : forall o2 s,
  p_run name text show_nat None ev prim expr lz u (o1 ++ o2) s =
  (fst (p_run name text show_nat None ev prim expr lz u o1 s) ++ fst (p_run name text show_nat None ev prim expr lz u o2 (snd (p_run name text show_nat None ev prim expr lz u o1 s))),
   snd (p_run name text show_nat None ev prim expr lz u o2 (snd (p_run name text show_nat None ev prim expr lz u o1 s)))).
Proof.
  induction o1 as [|o o1 IH]; intros o2 s; cbn [app p_run]; [cbn [fst snd app]; destruct (p_run name text show_nat None ev prim expr lz u o2 s); reflexivity|].
  destruct (p_step name text show_nat None ev prim expr lz u o s) as [r s1]. rewrite IH.
  destruct (p_run name text show_nat None ev prim expr lz u o1 s1) as [rs s2]. cbn [fst snd app].
  destruct (p_run name text show_nat None ev prim expr lz u o2 s2). reflexivity.
Qed.

Lemma a_run_app ev prim expr lz u o1 : forall o2 s,
  a_run ev prim expr lz u (o1 ++ o2) s =
  (fst (a_run ev prim expr lz u o1 s) ++ fst (a_run ev prim expr lz u o2 (snd (a_run ev prim expr lz u o1 s))),
   snd (a_run ev prim expr lz u o2 (snd (a_run ev prim expr lz u o1 s)))).
Proof.
  induction o1 as [|o o1 IH]; intros o2 s; cbn [app a_run]; [cbn [fst snd app]; destruct (a_run ev prim expr lz u o2 s); reflexivity|].
  destruct (a_step ev prim expr lz u o s) as [r s1]. rewrite IH.
  destruct (a_run ev prim expr lz u o1 s1) as [rs s2]. cbn [fst snd app].
  destruct (a_run ev prim expr lz u o2 s2). reflexivity.
Qed.

(** The first time an array is printed, after any history of list operations on it, the text shows as many values as it has items, in
    their order: each is the item, or a raw value that evaluates to it; and [repr] is the name of the class around that text. *)
Theorem first_print name text show_nat ev prim expr unique raw l ops rs l' : Stable ev -> Hashes ev unique ops ->
  Forall2 (fun d w => ev d = Ok w) raw l -> LRun ev ops l rs l' ->
  exists s s1 s2 vs t, p_create ev prim expr false unique raw = Ok s /\
    p_run name text show_nat None ev prim expr false unique (map POp ops ++ [PStr]) s = (map Value rs ++ [Text (Ok t)], s1) /\
    p_run name text show_nat None ev prim expr false unique (map POp ops ++ [PRepr]) s = (map Value rs ++ [Text (Ok (name ++ ["("]%char ++ t ++ [")"]%char))], s2) /\
    Shows text show_nat vs t /\ Forall2 (fun v w => v = w \/ ev v = Ok w) vs l'.
Proof.
  intros hst hh hf hrun. destruct (create_rep ev prim expr hst unique (fun e => proj1 (hh e)) false raw l hf) as (s & hs & hr).
  destruct (run_rep ev prim expr hst unique (fun e => proj1 (hh e)) false ops l rs l' hrun ltac:(discriminate) (fun e => proj2 (hh e)) s hr) as (s' & hs' & hr').
  destruct (rep_shows ev s' l' hr') as (vs & hv & hvl & _). destruct (list_text_shows text show_nat s' vs hv) as (t & ht & hsh).
  exists {| p_arr := s; p_text := None |}.
  exists {| p_arr := s'; p_text := Some t |}, {| p_arr := s'; p_text := Some t |}, vs, t.
  split; [unfold p_create; rewrite hs; reflexivity|].
  rewrite !run_app, !run_ops by reflexivity. cbn [p_arr fst snd]. rewrite hs'. cbn [fst snd p_run p_step].
  unfold to_str, to_repr, str_list. cbn [p_text p_arr]. rewrite ht. cbn [fst snd rbind]. repeat split; assumption.
Qed.

(** Once all the items have been read, the text shows the items; a false item (zero, an empty text, None) is shown by its raw value. *)
Theorem print_after_reading name text show_nat ev prim expr unique raw l ops rs l' : Stable ev -> Hashes ev unique ops ->
  Forall2 (fun d w => ev d = Ok w) raw l -> LRun ev ops l rs l' ->
  exists s s1 vs t, p_create ev prim expr false unique raw = Ok s /\
    p_run name text show_nat None ev prim expr false unique (map POp (ops ++ [AIter]) ++ [PStr]) s = (map Value (rs ++ [Ok (VList l')]) ++ [Text (Ok t)], s1) /\
    Shows text show_nat vs t /\ Forall2 (fun v w => v = w \/ (truthy w = false /\ ev v = Ok w)) vs l'.
Proof.
  intros hst hh hf hrun. destruct (create_rep ev prim expr hst unique (fun e => proj1 (hh e)) false raw l hf) as (s & hs & hr).
  destruct (run_rep ev prim expr hst unique (fun e => proj1 (hh e)) false ops l rs l' hrun ltac:(discriminate) (fun e => proj2 (hh e)) s hr) as (s' & hs' & hr').
  destruct (iter_full ev prim expr hst l' s' hr') as (s2 & h2 & hr2 & hfull).
  destruct (rep_shows ev s2 l' hr2) as (vs & hv & hvl & hvt). destruct (list_text_shows text show_nat s2 vs hv) as (t & ht & hsh).
  exists {| p_arr := s; p_text := None |}, {| p_arr := s2; p_text := Some t |}, vs, t.
  split; [unfold p_create; rewrite hs; reflexivity|].
  assert (ha : a_run ev prim expr false unique (ops ++ [AIter]) s = (rs ++ [Ok (VList l')], s2)).
  { rewrite a_run_app, hs'. cbn [fst snd a_run a_step]. rewrite h2. reflexivity. }
  rewrite run_app, !run_ops by reflexivity. cbn [p_arr fst snd]. rewrite ha. cbn [fst snd p_run p_step].
  unfold to_str, str_list. cbn [p_text p_arr]. rewrite ht. cbn [fst snd].
  split; [reflexivity|]. split; [exact hsh|]. specialize (hvt hfull). clear - hvl hvt.
  induction hvl as [|v w vs l h _ IH]; inversion hvt; subst; constructor; [|apply IH; assumption].
  destruct (truthy w) eqn:e; [left; auto|]. destruct h as [h | h]; [left; exact h | right; split; [reflexivity | exact h]].
Qed.

(** Lazy loading: before any item is read, it is the raw values that are printed. *)
Theorem lazy_print_raw name text show_nat ev prim expr raw :
  exists s s1 t, p_create ev prim expr true false raw = Ok s /\
    p_run name text show_nat None ev prim expr true false [PStr] s = ([Text (Ok t)], s1) /\ Shows text show_nat raw t /\ p_arr s1 = p_arr s.
Proof.
  assert (hv : shows_values (a_fresh raw) raw).
  { split; [reflexivity|]. intros i v e. unfold shown. cbn [a_val a_data a_fresh]. rewrite (map_nth_error _ _ _ e). cbn. rewrite e. reflexivity. }
  destruct (list_text_shows text show_nat _ _ hv) as (t & ht & hsh).
  exists {| p_arr := a_fresh raw; p_text := None |}, {| p_arr := a_fresh raw; p_text := Some t |}, t.
  split; [reflexivity|]. cbn [p_run p_step]. unfold to_str, str_list. cbn [p_text p_arr]. rewrite ht. repeat split. exact hsh.
Qed.

(** Printing never changes the items: whatever the history, the results of the list operations are those of the same history without
    the printing. *)
Fixpoint operations (ops : list pop) : list aop := match ops with [] => [] | POp o :: ops' => o :: operations ops' | _ :: ops' => operations ops' end.
Fixpoint values (rs : list pout) : list (res pyval) := match rs with [] => [] | Value r :: rs' => r :: values rs' | _ :: rs' => values rs' end.
Theorem print_changes_nothing name text show_nat declared ev prim expr lz u ops s :
  let r := p_run name text show_nat declared ev prim expr lz u ops s in
  (values (fst r), p_arr (snd r)) = a_run ev prim expr lz u (operations ops) (p_arr s).
Proof.
  cbn zeta. revert s. induction ops as [|o ops IH]; intros s; [reflexivity|]. cbn [p_run].
  assert (hp : p_arr (snd (str_list text show_nat declared s)) = p_arr s)
    by (unfold str_list; destruct (p_text s); [reflexivity|]; destruct (list_text _ _ _ _); reflexivity).
  destruct o as [| | o]; cbn [p_step operations].
  - specialize (IH (snd (to_str text show_nat declared s))). destruct (p_run _ _ _ _ _ _ _ _ _ ops _) as [rs s2]. cbn [fst snd values] in *.
    rewrite IH. unfold to_str. rewrite hp. reflexivity.
  - specialize (IH (snd (to_repr name text show_nat declared s))). destruct (p_run _ _ _ _ _ _ _ _ _ ops _) as [rs s2]. cbn [fst snd values] in *.
    rewrite IH. unfold to_repr. cbn [snd]. rewrite hp. reflexivity.
  - cbn [a_run]. destruct (a_step ev prim expr lz u o (p_arr s)) as [r a] eqn:e. specialize (IH {| p_arr := a; p_text := p_text s |}).
    destruct (p_run _ _ _ _ _ _ _ _ _ ops _) as [rs s2]. cbn [fst snd values p_arr] in *. rewrite <- IH. reflexivity.
Qed.

(** Not what is expected: once an array has been printed, it prints the same text for ever, whatever is done to its items. *)
Theorem printed_forever_refuted name text show_nat declared ev prim expr lz u s t s1 ops : to_str text show_nat declared s = (Ok t, s1) ->
  fst (to_str text show_nat declared (snd (p_run name text show_nat declared ev prim expr lz u ops s1))) = Ok t.
Proof.
  intros h.
  assert (h1 : p_text s1 = Some t).
  { unfold to_str, str_list in h. destruct (p_text s) as [u0|] eqn:e; [congruence|]. destruct (list_text _ _ _ _); [|discriminate]. injection h as <- <-. reflexivity. }
  clear h. assert (h2 : p_text (snd (p_run name text show_nat declared ev prim expr lz u ops s1)) = Some t).
  { revert s1 h1. induction ops as [|o ops IH]; intros s1 h1; [exact h1|]. cbn [p_run].
    destruct (p_step name text show_nat declared ev prim expr lz u o s1) as [r s2] eqn:e.
    assert (h2 : p_text s2 = Some t).
    { destruct o as [| | o]; cbn [p_step] in e.
      - injection e as _ <-. unfold to_str, str_list. rewrite h1. exact h1.
      - injection e as _ <-. unfold to_repr, str_list. rewrite h1. exact h1.
      - destruct (a_step ev prim expr lz u o (p_arr s1)) as [r0 a]. injection e as _ <-. exact h1. }
    specialize (IH s2 h2). destruct (p_run name text show_nat declared ev prim expr lz u ops s2). exact IH. }
  unfold to_str, str_list. rewrite h2. reflexivity.
Qed.

(** Not what is expected: in an array whose item types are given one by one, the items beyond the declared ones are neither shown nor
    counted, as long as there are ten items at most. *)
Theorem undeclared_items_unprinted_refuted text show_nat n s vs : shows_values s vs -> length vs <= 10 -> n <= length vs ->
  exists t s1, to_str text show_nat (Some n) {| p_arr := s; p_text := None |} = (Ok t, s1) /\ Shows text show_nat (firstn n vs) t.
Proof.
  intros h h10 hn. unfold to_str, str_list. cbn [p_text p_arr]. unfold list_text, typed. rewrite filter_seq.
  assert (hl : a_len s = length vs) by (exact (proj1 h)). rewrite hl, (each_shown text s vs) by (auto; unfold max_el; lia). cbn [rbind].
  eexists. eexists. split; [reflexivity|].
  assert (e := shows_of text show_nat (firstn n vs)). rewrite firstn_length in e. unfold max_el in *.
  replace (Nat.min n (length vs)) with n in * by lia. replace (Nat.min 10 n) with n by lia. replace (length vs - 10) with 0 by lia.
  replace (n - 10) with 0 in e by lia. rewrite firstn_firstn in e. replace (Nat.min 10 n) with n in e by lia. exact e.
Qed.

(** * A concrete array: integers read from texts, where the text of a formula is kept *)
Local Open Scope string_scope. Local Open Scope list_scope.
Definition ex_ev (v : pyval) : res pyval :=
  match v with
  | VInt _ => Ok v
  | VStr s => if beq s "`1-1`" then Ok (VInt 0) else if beq s "`1+1`" then Ok (VInt 2) else if beq s "7" then Ok (VInt 7) else Err TypeError
  | _ => Err TypeError
  end.
Definition ex_expr (v : pyval) : bool := match v with VStr s => negb (beq s "7") | _ => false end.
Definition ex_text (v : pyval) : list ascii :=
  match v with VInt 0 => chars "0" | VInt 2 => chars "2" | VInt 7 => chars "7" | VStr s => chars "'" ++ chars s ++ chars "'" | _ => chars "?" end.
Definition ex_nat (n : nat) : list ascii := if Nat.eqb n 2 then chars "2" else chars "?".
Definition ex_run (ops : list pop) : res (list pout) :=
  do s <- p_create ex_ev true ex_expr false false [VStr "7"; VStr "`1+1`"; VStr "`1-1`"];
  Ok (fst (p_run (chars "Ints") ex_text ex_nat None ex_ev true ex_expr false false ops s)).
Example ex_stable : Stable ex_ev.
Proof.
  intros v w h. destruct v as [| | z | s | | | |]; cbn in h; try discriminate; [injection h as <-; reflexivity|].
  destruct (beq s "`1-1`"), (beq s "`1+1`"), (beq s "7"); try discriminate; injection h as <-; reflexivity.
Qed.
Example ex_evaluates : Forall2 (fun d w => ex_ev d = Ok w) [VStr "7"; VStr "`1+1`"; VStr "`1-1`"] [VInt 7; VInt 2; VInt 0].
Proof. repeat constructor. Qed.
Example ex_history : LRun ex_ev [AAppend (VInt 7)] [VInt 7; VInt 2; VInt 0] [Ok VNone] [VInt 7; VInt 2; VInt 0; VInt 7].
Proof. eapply LR_cons; [apply (L_append ex_ev (VInt 7) (VInt 7)); reflexivity | constructor]. Qed.
(** the false item is shown by its formula *)
Example ex_print : ex_run [PStr; PRepr] = Ok [Text (Ok (chars "[7, 2, '`1-1`']")); Text (Ok (chars "Ints([7, 2, '`1-1`'])"))].
Proof. vm_compute. reflexivity. Qed.
(** the array has one item left, and prints three *)
Example ex_stale : ex_run [PStr; POp (ADel 0); POp (ADel 0); POp ALen; PStr] =
  Ok [Text (Ok (chars "[7, 2, '`1-1`']")); Value (Ok VNone); Value (Ok VNone); Value (Ok (VInt 1)); Text (Ok (chars "[7, 2, '`1-1`']"))].
Proof. vm_compute. reflexivity. Qed.
(** twelve items: ten are shown *)
Example ex_many : (do s <- p_create ex_ev true ex_expr false false (repeat (VInt 2) 12); fst (to_str ex_text ex_nat None s)) =
  Ok (chars "[2, 2, 2, 2, 2, 2, 2, 2, 2, 2, +2...]").
Proof. vm_compute. reflexivity. Qed.
(** two declared item types, three items *)
Definition ex_three : arr := {| a_data := [VInt 2; VInt 7; VInt 0]; a_val := [VInt 2; VInt 7; VInt 0] |}.
Example ex_tuple : shows_values ex_three [VInt 2; VInt 7; VInt 0] /\
  fst (to_str ex_text ex_nat (Some 2) {| p_arr := ex_three; p_text := None |}) = Ok (chars "[2, 7]").
Proof.
  split; [|vm_compute; reflexivity]. split; [reflexivity|].
  intros [|[|[|[|i]]]] v e; cbn in e; try discriminate; injection e as <-; reflexivity.
Qed.

Print Assumptions first_print.
Print Assumptions print_after_reading.
Print Assumptions lazy_print_raw.
Print Assumptions print_changes_nothing.
Print Assumptions printed_forever_refuted.
Print Assumptions undeclared_items_unprinted_refuted.
