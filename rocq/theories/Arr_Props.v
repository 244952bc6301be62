(** C56: arrays of a protocol class behave as lists of evaluated items; and where they do not. *)
From Verif Require Import Cmp_Spec Cmp_Proofs Arr_Model Arr_Spec Arr_Proofs.

(** Eager loading: built from raw values that all evaluate, an array answers every history of list operations as a list of
    the evaluated values does, and holds the same items afterwards. *)
Theorem array_is_a_list ev prim expr unique raw l ops rs l' : Stable ev -> Hashes ev unique ops ->
  Forall2 (fun d w => ev d = Ok w) raw l -> LRun ev ops l rs l' ->
  exists s s', a_create ev prim expr false unique raw = Ok s /\ a_run ev prim expr false unique ops s = (rs, s') /\
               fst (a_iter ev prim expr s') = Ok l' /\ a_len s' = length l'.
Proof.
  intros hst hh hf hrun. destruct (create_rep ev prim expr hst unique (fun e => proj1 (hh e)) false raw l hf) as (s & hs & hr).
  destruct (run_rep ev prim expr hst unique (fun e => proj1 (hh e)) false ops l rs l' hrun ltac:(discriminate) (fun e => proj2 (hh e)) s hr) as (s' & hs' & hr').
  exists s, s'. split; [exact hs|]. split; [exact hs'|]. destruct (iter_rep ev prim expr hst s' l' hr') as (s2 & -> & _).
  split; [reflexivity|]. apply (rep_len ev s' l' hr').
Qed.

(** Lazy loading: the same, for histories that assign to no existing position. *)
Theorem lazy_array_is_a_list ev prim expr unique raw l ops rs l' : Stable ev -> Hashes ev unique ops ->
  Forall2 (fun d w => ev d = Ok w) raw l -> Forall (fun o => assigns o = false) ops -> LRun ev ops l rs l' ->
  exists s s', a_create ev prim expr true unique raw = Ok s /\ a_run ev prim expr true unique ops s = (rs, s') /\
               fst (a_iter ev prim expr s') = Ok l' /\ a_len s' = length l'.
Proof.
  intros hst hh hf hno hrun. destruct (create_rep ev prim expr hst unique (fun e => proj1 (hh e)) true raw l hf) as (s & hs & hr).
  destruct (run_rep ev prim expr hst unique (fun e => proj1 (hh e)) true ops l rs l' hrun (fun _ => hno) (fun e => proj2 (hh e)) s hr) as (s' & hs' & hr').
  exists s, s'. split; [exact hs|]. split; [exact hs'|]. destruct (iter_rep ev prim expr hst s' l' hr') as (s2 & -> & _).
  split; [reflexivity|]. apply (rep_len ev s' l' hr').
Qed.

(** Every operation whose values are accepted is one of the list operations above. *)
Lemma split_at {A} (l : list A) p : p < length l -> exists l1 x l2, l = l1 ++ x :: l2 /\ length l1 = p.
Proof.
  intros h. destruct (nth_error l p) as [x|] eqn:hx; [|apply nth_error_None in hx; lia].
  apply nth_error_split in hx. destruct hx as (l1 & l2 & h1 & h2). eauto.
Qed.
Lemma first_or_not (x : pyval) l : (exists l1 y l2, l = l1 ++ y :: l2 /\ FirstEqual x l1 y) \/ forall z, In z l -> ~ PyEq z x.
Proof.
  induction l as [|y l IH]; [right; intros z []|]. destruct (val_eq y x) eqn:he; [apply val_eq_spec in he | apply val_eq_false in he].
  - left. exists [], y, l. split; [reflexivity | split; [intros z [] | exact he]].
  - destruct IH as [(l1 & z & l2 & -> & hn & hz) | hn].
    + left. exists (y :: l1), z, l2. split; [reflexivity|]. split; [|exact hz]. intros u [<- | h]; [exact he | exact (hn u h)].
    + right. intros u [<- | h]; [exact he | exact (hn u h)].
Qed.
Theorem accepted_operations_step ev o l : Accepted ev (length l) o -> exists r l', LStep ev o l r l'.
Proof.
  intros h.
  assert (hpos : forall i, (exists l1 x l2, l = l1 ++ x :: l2 /\ Refers (length (l1 ++ x :: l2)) i (length l1)) \/ OutOfRange (length l) i).
  { intros i. destruct (py_pos_cases (length l) i) as [(p & hp & hlt) | hout]; [left | right; apply py_pos_out, hout].
    apply py_pos_refers in hp. destruct (split_at l p hlt) as (l1 & x & l2 & hl & hp'). exists l1, x, l2. split; [exact hl|].
    rewrite <- hl, hp'. exact hp. }
  destruct o as [i | i v | i v | i | | | x | v | vs | i | x | | other]; cbn in h.
  - destruct (hpos i) as [(l1 & x & l2 & -> & hr) | ho]; [eauto using L_get | eauto using L_get_out].
  - destruct h as [w hw]. destruct (hpos i) as [(l1 & x & l2 & -> & hr) | ho]; [eauto using L_set | eauto using L_set_out].
  - destruct h as [[w hw] hi]. apply clamp_inserts in hi. pose proof (clamp_le (length l) i) as hle.
    rewrite <- (firstn_skipn (py_clamp (length l) i) l). do 2 eexists. apply L_insert; [|exact hw].
    rewrite firstn_skipn, firstn_length, Nat.min_l by exact hle. exact hi.
  - destruct (hpos i) as [(l1 & x & l2 & -> & hr) | ho]; [eauto using L_del | eauto using L_del_out].
  - eauto using L_len.
  - eauto using L_iter.
  - destruct (first_or_not x l) as [(l1 & y & l2 & -> & hn) | hn]; [eauto using L_index | eauto using L_index_not].
  - destruct h as [w hw]. eauto using L_append.
  - assert (hw : exists ws, Forall2 (fun v w => ev v = Ok w) vs ws).
    { induction h as [|v vs [w hw] h IH]; [exists []; constructor|]. destruct IH as [ws hws]. exists (w :: ws). constructor; assumption. }
    destruct hw as [ws hw]. eauto using L_extend.
  - destruct (hpos i) as [(l1 & x & l2 & -> & hr) | ho]; [eauto using L_pop | eauto using L_pop_out].
  - destruct (first_or_not x l) as [(l1 & y & l2 & -> & hn) | hn]; [eauto using L_remove | eauto using L_remove_not].
  - eauto using L_reverse.
  - destruct (all2 val_eq l other) eqn:he.
    + apply (all2_spec val_eq l other (fun x _ y => val_eq_spec x y)) in he. eauto using L_eq.
    + do 2 eexists. apply L_eq_not. intros hf. apply (all2_spec val_eq l other (fun x _ y => val_eq_spec x y)) in hf. congruence.
Qed.

(** A copy holds the same items, after any history that leaves some, and at least as many as 'minItems'. *)
Theorem array_copy_same ev prim expr unique dflt min_items raw l ops rs l' : Stable ev -> Hashes ev unique ops ->
  Forall2 (fun d w => ev d = Ok w) raw l -> LRun ev ops l rs l' -> (l' <> [] \/ dflt = []) -> min_items <= length l' ->
  exists s s' c, a_create ev prim expr false unique raw = Ok s /\ snd (a_run ev prim expr false unique ops s) = s' /\
                 a_copy ev prim expr false unique dflt min_items s' = Ok c /\ fst (a_iter ev prim expr c) = Ok l' /\
                 (forall other, fst (a_eq ev prim expr other c) = Ok true <-> Forall2 PyEq l' other).
Proof.
  intros hst hh hf hrun hne hmin. destruct (create_rep ev prim expr hst unique (fun e => proj1 (hh e)) false raw l hf) as (s & hs & hr).
  destruct (run_rep ev prim expr hst unique (fun e => proj1 (hh e)) false ops l rs l' hrun ltac:(discriminate) (fun e => proj2 (hh e)) s hr) as (s' & hs' & hr').
  assert (hd : a_deserialize dflt min_items (a_data s') = a_data s').
  { destruct (rep_len ev s' l' hr') as [hl _]. unfold a_deserialize.
    assert (hv : match a_data s' with [] => dflt | _ => a_data s' end = a_data s').
    { destruct (a_data s') eqn:hd'; [|reflexivity]. destruct hne as [hne | hne]; [|exact hne].
      destruct l'; [destruct hne; reflexivity | discriminate hl]. }
    rewrite hv. replace (min_items - length (a_data s')) with 0 by lia. apply app_nil_r. }
  destruct (create_rep ev prim expr hst unique (fun e => proj1 (hh e)) false (a_data s') l' (proj1 hr')) as (c & hc & hrc).
  exists s, s', c. rewrite hs'. split; [exact hs|]. split; [reflexivity|]. split; [unfold a_copy; rewrite hd; exact hc|].
  destruct (iter_rep ev prim expr hst c l' hrc) as (s2 & -> & _). split; [reflexivity|].
  intros other. destruct (eq_rep ev prim expr hst c l' other hrc) as (b & s3 & -> & _ & hb). cbn. rewrite <- hb. destruct b; split; congruence.
Qed.
(** The copy of an array that has been emptied holds the default items instead, *)
Theorem empty_copy_refuted ev prim expr unique dflt ld min_items raw l ops rs : Stable ev -> Hashes ev unique ops ->
  Forall2 (fun d w => ev d = Ok w) raw l -> LRun ev ops l rs [] ->
  Forall2 (fun d w => ev d = Ok w) dflt ld -> min_items <= length ld ->
  exists s s' c, a_create ev prim expr false unique raw = Ok s /\ snd (a_run ev prim expr false unique ops s) = s' /\ a_len s' = 0 /\
                 a_copy ev prim expr false unique dflt min_items s' = Ok c /\ fst (a_iter ev prim expr c) = Ok ld.
Proof.
  intros hst hh hf hrun hd hmin. destruct (create_rep ev prim expr hst unique (fun e => proj1 (hh e)) false raw l hf) as (s & hs & hr).
  destruct (run_rep ev prim expr hst unique (fun e => proj1 (hh e)) false ops l rs [] hrun ltac:(discriminate) (fun e => proj2 (hh e)) s hr) as (s' & hs' & hr').
  destruct (create_rep ev prim expr hst unique (fun e => proj1 (hh e)) false dflt ld hd) as (c & hc & hrc).
  destruct (rep_len ev s' [] hr') as [hl _]. exists s, s', c. rewrite hs'. split; [exact hs|]. split; [reflexivity|]. split; [exact hl|].
  split.
  - unfold a_copy, a_deserialize. destruct (a_data s'); [|discriminate hl].
    replace (min_items - length dflt) with 0 by (rewrite (F2_len _ _ _ hd); lia). rewrite app_nil_r. exact hc.
  - destruct (iter_rep ev prim expr hst c ld hrc) as (s2 & -> & _). reflexivity.
Qed.
(** and the copy of one shorter than 'minItems' is filled up with what null evaluates to. *)
Theorem short_copy_refuted ev prim expr unique dflt min_items raw l ops rs l' w : Stable ev -> Hashes ev unique ops ->
  Forall2 (fun d w => ev d = Ok w) raw l -> LRun ev ops l rs l' -> l' <> [] -> ev VNone = Ok w ->
  exists s s' c, a_create ev prim expr false unique raw = Ok s /\ snd (a_run ev prim expr false unique ops s) = s' /\ a_len s' = length l' /\
                 a_copy ev prim expr false unique dflt min_items s' = Ok c /\
                 fst (a_iter ev prim expr c) = Ok (l' ++ repeat w (min_items - length l')).
Proof.
  intros hst hh hf hrun hne hw. destruct (create_rep ev prim expr hst unique (fun e => proj1 (hh e)) false raw l hf) as (s & hs & hr).
  destruct (run_rep ev prim expr hst unique (fun e => proj1 (hh e)) false ops l rs l' hrun ltac:(discriminate) (fun e => proj2 (hh e)) s hr) as (s' & hs' & hr').
  destruct (rep_len ev s' l' hr') as [hl _].
  assert (hv : match a_data s' with [] => dflt | _ => a_data s' end = a_data s').
  { destruct (a_data s') eqn:hd'; [|reflexivity]. destruct l'; [destruct hne; reflexivity | discriminate hl]. }
  assert (hf2 : Forall2 (fun d w => ev d = Ok w) (a_deserialize dflt min_items (a_data s')) (l' ++ repeat w (min_items - length l'))).
  { unfold a_deserialize. rewrite hv, hl. apply Forall2_app; [exact (proj1 hr')|].
    induction (min_items - length l') as [|n IH]; cbn; constructor; assumption. }
  destruct (create_rep ev prim expr hst unique (fun e => proj1 (hh e)) false _ _ hf2) as (c & hc & hrc).
  exists s, s', c. rewrite hs'. split; [exact hs|]. split; [reflexivity|]. split; [exact hl|]. split; [exact hc|].
  destruct (iter_rep ev prim expr hst c _ hrc) as (s2 & -> & _). reflexivity.
Qed.

(** With 'uniqueItems', appending a value that has no items, such as a number, or whose items cannot be hashed, raises
    TypeError with the item in the array. *)
Theorem unique_append_refuted ev prim expr lz raw l v w : Stable ev -> (forall v w, ev v = Ok w -> Query_Model.hashable w = true) ->
  Forall2 (fun d w => ev d = Ok w) raw l -> ev v = Ok w ->
  (match v with VStr _ | VDict _ => False | VList vs | VTup vs => exists x, In x vs /\ Query_Model.hashable x = false | _ => True end) ->
  exists s s', a_create ev prim expr lz true raw = Ok s /\ a_append ev prim expr lz true v s = (Err TypeError, s') /\
               fst (a_iter ev prim expr s') = Ok (l ++ [w]).
Proof.
  intros hst hh hf hv hit. destruct (create_rep ev prim expr hst true (fun _ => hh) lz raw l hf) as (s & hs & hr).
  destruct (put_rep ev prim expr hst s l (Z.of_nat (length l)) v w lz hr ltac:(lia) hv) as (s' & h & hr'). rewrite insert_end in hr'.
  exists s, s'. split; [exact hs|]. split.
  - unfold a_append, a_len, a_insert. destruct (rep_len ev s l hr) as [-> _]. rewrite h. unfold check_value.
    assert (hi : iterates v = false); [|rewrite hi; reflexivity].
    assert (g : forall vs : list pyval, (exists x, In x vs /\ Query_Model.hashable x = false) -> forallb Query_Model.hashable vs = false).
    { intros vs (x & hx & hn). destruct (forallb _ vs) eqn:hb; [|reflexivity]. rewrite forallb_forall in hb. rewrite (hb x hx) in hn. discriminate. }
    destruct v; try reflexivity; try destruct hit; apply g; eauto.
  - destruct (iter_rep ev prim expr hst s' _ hr') as (s2 & -> & _). reflexivity.
Qed.

(** * Reading *)
Lemma get_read ev prim expr i s x : py_get i (a_val s) = Ok x -> x <> VNone -> a_get ev prim expr i s = (Ok x, s).
Proof. intros h hn. unfold a_get. rewrite h. destruct x; try reflexivity. destruct hn; reflexivity. Qed.
Lemma py_get_nth {A} (l : list A) p x : nth_error l p = Some x -> py_get (Z.of_nat p) l = Ok x.
Proof. intros h. unfold py_get. rewrite py_pos_nat by (apply nth_error_Some; congruence). cbn. rewrite h. reflexivity. Qed.
Lemma iter_read ev prim expr s : Forall (fun v => v <> VNone) (a_val s) -> a_iter ev prim expr s = (Ok (a_val s), s).
Proof.
  intros hf. unfold a_iter.
  assert (h : forall n i, i + n = length (a_val s) -> iter_from ev prim expr n i s = (Ok (skipn i (a_val s)), s)).
  { induction n as [|n IH]; intros i hi; cbn [iter_from]; [rewrite skipn_all2 by lia; reflexivity|].
    destruct (nth_error (a_val s) i) as [x|] eqn:hx; [|apply nth_error_None in hx; lia].
    rewrite (get_read ev prim expr _ s x (py_get_nth _ _ _ hx)); [|exact (proj1 (Forall_forall _ _) hf x (nth_error_In _ _ hx))].
    rewrite IH by lia. rewrite (skipn_nth _ _ _ hx). reflexivity. }
  apply (h (length (a_val s)) 0). reflexivity.
Qed.

(** Lazy loading, once an item has been read: assigning to it succeeds and is not seen by later reads. *)
Theorem lazy_assignment_ignored_refuted ev prim expr s i x s1 v s2 : a_get ev prim expr i s = (Ok x, s1) -> x <> VNone ->
  a_set ev prim expr true i v s1 = (Ok VNone, s2) -> fst (a_get ev prim expr i s2) = Ok x.
Proof.
  intros hg hx hset.
  assert (h1 : py_get i (a_val s1) = Ok x).
  { unfold a_get in hg. destruct (py_get i (a_val s)) as [v0|] eqn:h0; [|discriminate].
    assert (hc : (v0 <> VNone -> s1 = s /\ v0 = x)) by (intros hn; destruct v0; try (inversion hg; auto); destruct hn; reflexivity).
    destruct (eq_dec v0 VNone) as [-> | hn]; [|destruct (hc hn) as [-> ->]; exact h0].
    destruct (a_evaluate ev prim expr i s); [|discriminate]. injection hg as hg1 hg2. subst. exact hg1. }
  unfold a_set in hset. destruct (py_set i v (a_data s1)); [|discriminate]. injection hset as <-.
  rewrite (get_read ev prim expr i _ x); [reflexivity | exact h1 | exact hx].
Qed.

(** A lazy array whose items have been read is not changed by [reverse]. *)
Theorem lazy_reverse_ignored_refuted ev prim expr s : Forall (fun v => v <> VNone) (a_val s) -> length (a_data s) = length (a_val s) ->
  exists s', a_reverse ev prim expr true s = (Ok VNone, s') /\ fst (a_iter ev prim expr s') = Ok (a_val s).
Proof.
  intros hf hl. unfold a_reverse, a_len.
  assert (hg : forall n i t, a_val t = a_val s -> length (a_data t) = length (a_val s) -> n + i <= Nat.div2 (length (a_data s)) ->
    exists t', reverse_from ev prim expr true n i (length (a_data s)) t = (Ok VNone, t') /\ a_val t' = a_val s).
  { assert (hd : Nat.div2 (length (a_data s)) <= length (a_data s)) by (apply Nat.div2_decr; lia).
    induction n as [|n IH]; intros i t hv hd' hn; cbn [reverse_from]; [eauto|].
    assert (hi : i < length (a_val s)) by lia.
    set (j := length (a_data s) - i - 1). assert (hj : j < length (a_val s)) by (unfold j; lia).
    unfold a_swap.
    assert (get : forall p u, p < length (a_val s) -> a_val u = a_val s -> exists x, a_get ev prim expr (Z.of_nat p) u = (Ok x, u)).
    { intros p u hp hu. destruct (nth_error (a_val s) p) as [x|] eqn:hx; [|apply nth_error_None in hx; lia].
      exists x. apply get_read; [rewrite hu; apply py_get_nth, hx|]. exact (proj1 (Forall_forall _ _) hf x (nth_error_In _ _ hx)). }
    destruct (get j t hj hv) as [xj ->]. destruct (get i t hi hv) as [xi ->].
    assert (set_ : forall p u x, p < length (a_val s) -> a_val u = a_val s -> length (a_data u) = length (a_val s) ->
      exists u', a_set ev prim expr true (Z.of_nat p) x u = (Ok VNone, u') /\ a_val u' = a_val s /\ length (a_data u') = length (a_val s)).
    { intros p u x hp hu hul. unfold a_set, py_set. rewrite py_pos_nat by lia. cbn [rbind]. eexists. split; [reflexivity|]. cbn [a_data a_val].
      split; [exact hu|]. rewrite len_put by lia. exact hul. }
    destruct (set_ i t xj hi hv hd') as (t1 & -> & hv1 & hl1). destruct (set_ j t1 xi hj hv1 hl1) as (t2 & -> & hv2 & hl2).
    apply (IH (S i) t2 hv2 hl2). lia. }
  destruct (hg (Nat.div2 (length (a_data s))) 0 s eq_refl hl ltac:(lia)) as (t & ht & hv). exists t. split; [exact ht|].
  rewrite iter_read; rewrite hv; [reflexivity | exact hf].
Qed.

(** Eager loading: an insertion at an index a list would clamp raises IndexError, with the item in the array. *)
Theorem insert_out_of_range_refuted ev prim expr unique s i v : length (a_data s) = length (a_val s) ->
  OutOfRange (S (a_len s)) i ->
  exists s', a_insert ev prim expr false unique i v s = (Err IndexError, s') /\
             ((0 <= i)%Z -> a_data s' = a_data s ++ [v]) /\ ((i < 0)%Z -> a_data s' = v :: a_data s).
Proof.
  intros hl ho. unfold a_insert, a_put.
  set (s1 := {| a_data := py_insert i v (a_data s); a_val := py_insert i VNone (a_val s) |}). exists s1. split.
  - unfold a_evaluate, py_get. cbn [a_data s1]. rewrite len_insert. apply py_pos_out in ho. unfold a_len in ho. rewrite ho. reflexivity.
  - unfold OutOfRange, a_len in ho. unfold s1. cbn [a_data]. unfold py_insert, py_clamp. split; intros hi.
    + destruct (Z.ltb_spec i 0); [lia|]. rewrite Nat.min_r by lia. rewrite firstn_all, skipn_all. reflexivity.
    + destruct (Z.ltb_spec i 0); [|lia]. replace (Z.to_nat (Z.max 0 (i + Z.of_nat (length (a_data s))))) with 0 by lia. reflexivity.
Qed.

(** Eager loading: a value the item type rejects is nevertheless inserted at a negative index, and rejected when it is read. *)
Theorem negative_insert_unchecked_refuted ev prim expr unique raw l i p v e : Stable ev -> Hashes ev unique [AInsert i v] -> Forall2 (fun d w => ev d = Ok w) raw l ->
  (i < 0)%Z -> Refers (length l) i p -> ev v = Err e ->
  exists s s', a_create ev prim expr false unique raw = Ok s /\ a_insert ev prim expr false unique i v s = (Ok VNone, s') /\
               a_len s' = S (length l) /\ fst (a_get ev prim expr (Z.of_nat p) s') = Err e.
Proof.
  intros hst hh hf hi hp hv. destruct (create_rep ev prim expr hst unique (fun e => proj1 (hh e)) false raw l hf) as (s & hs & hr).
  destruct (rep_len ev s l hr) as [hl1 hl2]. destruct hr as [h1 h2].
  assert (hck : check_value unique v = Ok VNone).
  { unfold check_value. destruct unique; [|reflexivity]. rewrite (Forall_inv (Forall_inv (proj2 (hh eq_refl)))). reflexivity. }
  assert (hip : i = (Z.of_nat p - Z.of_nat (length l))%Z /\ p < length l) by (inversion hp; subst; split; lia).
  destruct hip as [-> hlt]. clear hp.
  assert (hc : forall A (x : A) m, length m = length l -> py_insert (Z.of_nat p - Z.of_nat (length l)) x m = firstn p m ++ x :: skipn p m).
  { intros A x m hm. unfold py_insert, py_clamp. rewrite hm.
    destruct (Z.ltb_spec (Z.of_nat p - Z.of_nat (length l)) 0); [|lia].
    replace (Z.to_nat (Z.max 0 (Z.of_nat p - Z.of_nat (length l) + Z.of_nat (length l)))) with p by lia. reflexivity. }
  assert (hpos : py_pos (S (length l)) (Z.of_nat p - Z.of_nat (length l)) = Ok (S p)).
  { apply py_pos_refers. replace (Z.of_nat p - Z.of_nat (length l))%Z with (Z.of_nat (S p) - Z.of_nat (S (length l)))%Z by lia.
    apply Ref_neg. lia. }
  destruct (F2_nth _ _ _ p h1) as [(d & w & hd & hw & hdw) | [_ hn]]; [|apply nth_error_None in hn; lia].
  set (s1 := {| a_data := py_insert (Z.of_nat p - Z.of_nat (length l)) v (a_data s);
                a_val := py_insert (Z.of_nat p - Z.of_nat (length l)) VNone (a_val s) |}).
  assert (hn1 : forall A (x : A) m, length m = length l -> nth_error (firstn p m ++ x :: skipn p m) p = Some x).
  { intros A x m hm. rewrite nth_error_app2; rewrite firstn_length, Nat.min_l by lia; [|lia]. rewrite Nat.sub_diag. reflexivity. }
  assert (hd1 : nth_error (a_data s1) (S p) = Some d).
  { unfold s1. cbn [a_data]. rewrite hc by exact hl1. rewrite nth_error_app2; rewrite firstn_length, Nat.min_l by lia; [|lia].
    replace (S p - p) with 1 by lia. rewrite (skipn_nth _ _ _ hd). reflexivity. }
  exists s. unfold a_insert, a_put. fold s1.
  assert (he : exists d', a_evaluate ev prim expr (Z.of_nat p - Z.of_nat (length l)) s1
                 = Ok {| a_data := d'; a_val := firstn (S p) (a_val s1) ++ w :: skipn (S (S p)) (a_val s1) |}
                 /\ nth_error d' p = Some v /\ length d' = S (length l)).
  { unfold a_evaluate, a_set_validated, py_get, py_set.
    assert (ls : length (a_data s1) = S (length l)) by (cbn; rewrite len_insert; congruence).
    assert (lv : length (a_val s1) = S (length l)) by (cbn; rewrite len_insert; congruence).
    rewrite ls, lv, hpos. cbn [rbind]. rewrite hd1. cbn [rbind]. rewrite hdw. cbn [rbind].
    assert (hvp : nth_error (a_data s1) p = Some v) by (cbn; rewrite hc by exact hl1; apply hn1, hl1).
    destruct (prim && expr d); cbn [rbind]; eexists; (split; [reflexivity|]); (split; [|]).
    - exact hvp.
    - exact ls.
    - rewrite nth_error_app1 by (rewrite firstn_length; lia). rewrite <- (firstn_skipn (S p) (a_data s1)) in hvp.
      rewrite nth_error_app1 in hvp by (rewrite firstn_length; lia). exact hvp.
    - rewrite len_put by lia. exact ls. }
  destruct he as (d' & he & hd' & hld). rewrite he. eexists. split; [exact hs|]. split; [rewrite hck; reflexivity|]. split; [exact hld|].
  unfold a_get. cbn [a_val].
  assert (hv1 : py_get (Z.of_nat p) (firstn (S p) (a_val s1) ++ w :: skipn (S (S p)) (a_val s1)) = Ok VNone).
  { apply py_get_nth. assert (hvp : nth_error (a_val s1) p = Some VNone) by (cbn; rewrite hc by exact hl2; apply hn1, hl2).
    assert (lv : length (a_val s1) = S (length l)) by (cbn; rewrite len_insert; congruence).
    rewrite nth_error_app1 by (rewrite firstn_length; lia). rewrite <- (firstn_skipn (S p) (a_val s1)) in hvp.
    rewrite nth_error_app1 in hvp by (rewrite firstn_length; lia). exact hvp. }
  rewrite hv1. unfold a_evaluate. cbn [a_data]. rewrite (py_get_nth d' p v hd'). cbn [rbind]. rewrite hv. reflexivity.
Qed.

(** Eager loading: a rejected insertion raises, and the item is in the array all the same. *)
Theorem rejected_insert_stays_refuted ev prim expr unique raw l p v e : Stable ev -> Hashes ev unique [] -> Forall2 (fun d w => ev d = Ok w) raw l ->
  p <= length l -> ev v = Err e ->
  exists s s', a_create ev prim expr false unique raw = Ok s /\ a_insert ev prim expr false unique (Z.of_nat p) v s = (Err e, s') /\
               a_len s' = S (length l) /\ fst (a_get ev prim expr (Z.of_nat p) s') = Err e.
Proof.
  intros hst hh hf hp hv. destruct (create_rep ev prim expr hst unique (fun e => proj1 (hh e)) false raw l hf) as (s & hs & hr).
  destruct (rep_len ev s l hr) as [hl1 hl2]. exists s.
  assert (hc : forall A (x : A) m, length m = length l -> nth_error (py_insert (Z.of_nat p) x m) p = Some x).
  { intros A x m hm. unfold py_insert, py_clamp. rewrite hm. destruct (Z.ltb_spec (Z.of_nat p) 0); [lia|].
    rewrite Nat2Z.id, Nat.min_l by lia. rewrite nth_error_app2; rewrite firstn_length, Nat.min_l by lia; [|lia].
    rewrite Nat.sub_diag. reflexivity. }
  unfold a_insert, a_put.
  assert (he : a_evaluate ev prim expr (Z.of_nat p)
     {| a_data := py_insert (Z.of_nat p) v (a_data s); a_val := py_insert (Z.of_nat p) VNone (a_val s) |} = Err e).
  { unfold a_evaluate. cbn [a_data]. rewrite (py_get_nth _ p v) by (apply hc, hl1). cbn. rewrite hv. reflexivity. }
  rewrite he. eexists. split; [exact hs|]. split; [reflexivity|]. split; [unfold a_len; cbn; rewrite len_insert; congruence|].
  unfold a_get. cbn [a_val]. rewrite (py_get_nth _ p VNone) by (apply hc, hl2). rewrite he. reflexivity.
Qed.

(** reading the items one by one, up to one that fails *)
Lemma iter_stop ev prim expr v e d2 : ev v = Err e -> forall ds ws k t, Forall2 (fun a w => ev a = Ok w) ds ws ->
  (exists pre, a_data t = pre ++ ds ++ v :: d2 /\ length pre = k) -> length (a_val t) = length (a_data t) ->
  (forall q, k <= q -> q < length (a_val t) -> nth_error (a_val t) q = Some VNone) ->
  exists t', iter_from ev prim expr (length (ds ++ v :: d2)) k t = (match e with IndexError => Ok ws | _ => Err e end, t') /\
             length (a_data t') = length (a_data t) /\ nth_error (a_data t') (k + length ds) = Some v /\
             nth_error (a_val t') (k + length ds) = Some VNone.
Proof.
  intros hv. induction ds as [|a ds IH]; intros ws k t hds (pre & hpre & hk) hlen hnone; inversion hds as [|? w ? ws' ha hds' E1 E2]; subst;
    cbn [app length iter_from].
  - assert (hq : length pre < length (a_val t)) by (rewrite hlen, hpre, app_length; cbn; lia).
    unfold a_get. rewrite (py_get_nth (a_val t) (length pre) VNone) by (apply hnone; lia). unfold a_evaluate.
    rewrite (py_get_nth (a_data t) (length pre) v) by (rewrite hpre; apply nth_mid). cbn [rbind]. rewrite hv.
    exists t. split; [destruct e; reflexivity|]. split; [reflexivity|]. rewrite Nat.add_0_r. split; [rewrite hpre; apply nth_mid | apply hnone; lia].
  - assert (hq : length pre < length (a_val t)) by (rewrite hlen, hpre, app_length; cbn; lia).
    unfold a_get. rewrite (py_get_nth (a_val t) (length pre) VNone) by (apply hnone; lia). unfold a_evaluate.
    assert (hna : nth_error (a_data t) (length pre) = Some a) by (rewrite hpre; apply nth_mid).
    rewrite (py_get_nth (a_data t) (length pre) a hna). cbn [rbind]. rewrite ha. cbn [rbind].
    unfold a_set_validated. rewrite (py_get_nth (a_data t) (length pre) a hna). cbn [rbind]. unfold py_set.
    rewrite !py_pos_nat by lia. cbn [rbind]. replace (length pre + S (length ds)) with (S (length pre) + length ds) by lia.
    assert (hnone' : forall q, S (length pre) <= q -> q < length (firstn (length pre) (a_val t) ++ w :: skipn (S (length pre)) (a_val t)) ->
        nth_error (firstn (length pre) (a_val t) ++ w :: skipn (S (length pre)) (a_val t)) q = Some VNone).
    { intros q hkq hql. rewrite len_put in hql by lia. rewrite nth_error_app2; rewrite firstn_length, Nat.min_l by lia; [|lia].
      replace (q - length pre) with (S (q - S (length pre))) by lia. cbn [nth_error].
      specialize (hnone q ltac:(lia) hql). rewrite <- (firstn_skipn (S (length pre)) (a_val t)) in hnone.
      rewrite nth_error_app2 in hnone; rewrite firstn_length, Nat.min_l in * by lia; [exact hnone | lia]. }
    destruct (prim && expr a); cbn [rbind a_val]; rewrite (py_get_nth _ (length pre) w) by (apply nth_put; lia).
    + match goal with |- context [iter_from _ _ _ _ _ ?t0] => set (u := t0) end.
      destruct (IH ws' (S (length pre)) u) as (t' & ht' & hl' & h1 & h2); [exact hds' | | | exact hnone' |].
      * exists (pre ++ [a]). unfold u. cbn [a_data]. rewrite hpre, <- app_assoc, app_length. cbn. split; [reflexivity | lia].
      * unfold u. cbn [a_data a_val]. rewrite len_put by lia. exact hlen.
      * exists t'. split; [rewrite ht'; destruct e; reflexivity|]. auto.
    + match goal with |- context [iter_from _ _ _ _ _ ?t0] => set (u := t0) end.
      destruct (IH ws' (S (length pre)) u) as (t' & ht' & hl' & h1 & h2); [exact hds' | | | exact hnone' |].
      * exists (pre ++ [w]). unfold u. cbn [a_data]. rewrite hpre. cbn [app]. rewrite put_app, <- app_assoc, app_length. cbn. split; [reflexivity | lia].
      * unfold u. cbn [a_data a_val]. rewrite !len_put by lia. exact hlen.
      * exists t'. split; [rewrite ht'; destruct e; reflexivity|]. unfold u in hl'. cbn [a_data] in hl'. rewrite len_put in hl' by lia. auto.
Qed.
Lemma fresh_none raw q : q < length (a_val (a_fresh raw)) -> nth_error (a_val (a_fresh raw)) q = Some VNone.
Proof.
  cbn. rewrite map_length. intros hq. destruct (nth_error raw q) as [y|] eqn:hy; [|apply nth_error_None in hy; lia].
  rewrite (map_nth_error _ _ _ hy). reflexivity.
Qed.

(** An item whose evaluation fails with IndexError ends every iteration silently: the array is built, counts the item, and
    lists only the items before it. *)
Theorem index_error_truncates_refuted ev prim expr lz good l bad rest : Forall2 (fun d w => ev d = Ok w) good l -> ev bad = Err IndexError ->
  exists s, a_create ev prim expr lz false (good ++ bad :: rest) = Ok s /\ a_len s = length (good ++ bad :: rest) /\
            fst (a_get ev prim expr (Z.of_nat (length good)) s) = Err IndexError /\
            fst (a_iter ev prim expr (a_fresh (good ++ bad :: rest))) = Ok l.
Proof.
  intros hf hb. destruct (iter_stop ev prim expr bad IndexError rest hb good l 0 (a_fresh (good ++ bad :: rest)) hf) as (t & ht & hl & hd & hv).
  - exists []. split; reflexivity.
  - cbn. rewrite map_length. reflexivity.
  - intros q _ hq. apply fresh_none, hq.
  - assert (hit : a_iter ev prim expr (a_fresh (good ++ bad :: rest)) = (Ok l, t)).
    { unfold a_iter. cbn [a_val a_fresh]. rewrite map_length. exact ht. }
    assert (hget : forall u, nth_error (a_data u) (length good) = Some bad -> nth_error (a_val u) (length good) = Some VNone ->
              fst (a_get ev prim expr (Z.of_nat (length good)) u) = Err IndexError).
    { intros u h1 h2. unfold a_get. rewrite (py_get_nth _ _ _ h2). unfold a_evaluate. rewrite (py_get_nth _ _ _ h1). cbn. rewrite hb. reflexivity. }
    unfold a_create. destruct lz.
    + eexists. split; [reflexivity|]. split; [reflexivity|]. rewrite hit. split; [|reflexivity].
      apply hget; [cbn; apply nth_mid | apply fresh_none; cbn; rewrite map_length, app_length; cbn; lia].
    + rewrite hit. exists t. split; [reflexivity|]. split; [exact hl|]. split; [apply hget; assumption | reflexivity].
Qed.

(** A slice of a lazy array that has not been read is made of None. *)
Theorem lazy_slice_none_refuted raw i j : i <= j -> j <= length raw -> a_get_slice i j (a_fresh raw) = repeat VNone (j - i).
Proof.
  intros h1 h2. unfold a_get_slice. cbn [a_val a_fresh].
  assert (h : map (fun _ => VNone) raw = repeat VNone (length raw)) by (clear; induction raw; cbn; congruence).
  rewrite h. clear h. replace (length raw) with (i + ((j - i) + (length raw - j))) by lia.
  rewrite !repeat_app. rewrite skipn_app, skipn_all2 by (rewrite repeat_length; lia). rewrite repeat_length, Nat.sub_diag. cbn [app skipn].
  rewrite firstn_app, firstn_all2 by (rewrite repeat_length; lia). rewrite repeat_length, Nat.sub_diag, firstn_O, app_nil_r. reflexivity.
Qed.
(** Assigning to a slice of a lazy array that has been read changes its length, not its items. *)
Theorem lazy_slice_assignment_refuted ev prim expr i j vs s : Forall (fun v => v <> VNone) (a_val s) -> i <= j -> j <= length (a_data s) ->
  exists s', a_set_slice true i j vs s = (Ok VNone, s') /\ fst (a_iter ev prim expr s') = Ok (a_val s) /\
             a_len s' + (j - i) = a_len s + length vs.
Proof.
  intros hf h1 h2. eexists. split; [reflexivity|]. split; [rewrite iter_read; [reflexivity | exact hf]|].
  unfold a_len. cbn [a_data]. rewrite !app_length, firstn_length, skipn_length. lia.
Qed.

(** Eager loading: after a rejected assignment the array reads as before, and cannot be copied. *)
Theorem rejected_assignment ev prim expr raw l l1 x l2 i v e : Stable ev -> Forall2 (fun d w => ev d = Ok w) raw l ->
  l = l1 ++ x :: l2 -> Forall (fun w => w <> VNone) l -> Refers (length l) i (length l1) -> ev v = Err e -> e <> IndexError ->
  exists s s', a_create ev prim expr false false raw = Ok s /\ a_set ev prim expr false i v s = (Err e, s') /\
               fst (a_iter ev prim expr s') = Ok l /\ a_copy ev prim expr false false [] 0 s' = Err e.
Proof.
  intros hst hf hl hnn hi hv hne. pose proof (rep_fresh ev raw l hf) as hr0.
  destruct (iter_rep ev prim expr hst _ l hr0) as (s & hit & hr).
  assert (hval : a_val s = l).
  { assert (g : forall n k t t', Rep ev t l -> k + n = length l -> (forall p, p < k -> nth_error (a_val t) p = nth_error l p) ->
        iter_from ev prim expr n k t = (Ok (skipn k l), t') -> forall p, p < length l -> nth_error (a_val t') p = nth_error l p).
    { induction n as [|n IH]; intros k t t' ht hk hpre hrun p hp; cbn [iter_from] in hrun.
      - injection hrun as _ <-. apply hpre. lia.
      - destruct (nth_error l k) as [y|] eqn:hy; [|apply nth_error_None in hy; lia].
        destruct (get_nth ev prim expr hst t l k y ht hy) as (t1 & hg & ht1). rewrite hg in hrun.
        destruct (iter_from_rep ev prim expr hst n (S k) t1 l ht1 ltac:(lia)) as (t2 & h2 & _).
        rewrite h2 in hrun. injection hrun as _ <-. apply (IH (S k) t1 t2 ht1 ltac:(lia)); [|exact h2|exact hp].
        intros q hq. destruct (rep_len ev t l ht) as [ld lv].
        assert (hyn : y <> VNone) by (exact (proj1 (Forall_forall _ _) hnn y (nth_error_In _ _ hy))).
        unfold a_get in hg. destruct (py_get (Z.of_nat k) (a_val t)) as [v0|] eqn:h0; [|discriminate].
        destruct (eq_dec v0 VNone) as [-> | hv0].
        + unfold a_evaluate in hg. destruct (py_get (Z.of_nat k) (a_data t)) as [d|]; [|discriminate]. cbn [rbind] in hg.
          destruct (ev d) as [w|]; [|discriminate]. cbn [rbind] in hg. unfold a_set_validated in hg.
          destruct (py_get (Z.of_nat k) (a_data t)) as [o|]; [|discriminate]. cbn [rbind] in hg.
          destruct (if prim && expr o then _ else _) as [dd|]; [|discriminate]. cbn [rbind] in hg.
          unfold py_set in hg. rewrite py_pos_nat in hg by lia. cbn [rbind] in hg. injection hg as hg1 hg2. subst t1.
          cbn [a_val] in *.
          rewrite (py_get_nth _ k w) in hg1 by (apply nth_put; lia). injection hg1 as ->.
          destruct (Nat.eq_dec q k) as [-> | hqk]; [change (nth_error (firstn k (a_val t) ++ y :: skipn (S k) (a_val t)) k = nth_error l k); rewrite nth_put by lia; congruence|].
          rewrite <- (hpre q) by lia. rewrite nth_error_app1 by (rewrite firstn_length; lia).
          rewrite <- (firstn_skipn k (a_val t)) at 2. rewrite nth_error_app1 by (rewrite firstn_length; lia). reflexivity.
        + assert (heq : t1 = t /\ v0 = y) by (destruct v0; try (inversion hg; auto); destruct hv0; reflexivity).
          destruct heq as [-> ->]. destruct (Nat.eq_dec q k) as [-> | hqk]; [|apply hpre; lia].
          unfold py_get in h0. rewrite py_pos_nat in h0 by lia. cbn in h0. destruct (nth_error (a_val t) k); [congruence | discriminate]. }
    destruct (rep_len ev s l hr) as [_ lv]. unfold a_iter in hit.
    destruct (rep_len ev _ l hr0) as [_ lv0]. rewrite lv0 in hit.
    specialize (g (length l) 0 (a_fresh raw) s hr0 eq_refl ltac:(intros; lia) hit).
    assert (ext : forall A (m1 m2 : list A), length m1 = length m2 -> (forall p, p < length m2 -> nth_error m1 p = nth_error m2 p) -> m1 = m2).
    { clear. induction m1 as [|a m1 IH]; intros [|b m2] hlen h; cbn in *; try discriminate; [reflexivity|].
      f_equal; [specialize (h 0 ltac:(lia)); cbn in h; congruence|]. apply IH; [lia|]. intros p hp. exact (h (S p) ltac:(lia)). }
    apply ext; [exact lv | exact g]. }
  exists s. destruct (rep_len ev s l hr) as [hl1 hl2]. apply py_pos_refers in hi.
  set (d := firstn (length l1) (a_data s) ++ v :: skipn (S (length l1)) (a_data s)).
  assert (hlt : length l1 < length (a_data s)) by (rewrite hl1, hl, app_length; cbn; lia).
  assert (hdn : nth_error d (length l1) = Some v) by (apply nth_put; exact hlt).
  assert (hset : a_set ev prim expr false i v s = (Err e, {| a_data := d; a_val := a_val s |})).
  { unfold a_set, py_set. rewrite hl1, hi. cbn [rbind]. fold d. unfold a_evaluate, py_get. cbn [a_data].
    replace (length d) with (length l) by (unfold d; rewrite len_put by exact hlt; congruence). rewrite hi. cbn [rbind].
    rewrite hdn. cbn [rbind]. rewrite hv. reflexivity. }
  eexists. split; [unfold a_create; rewrite hit; reflexivity|]. split; [exact hset|]. split.
  - rewrite iter_read; cbn [a_val]; rewrite hval; [reflexivity | exact hnn].
  - unfold a_copy, a_create. cbn [a_data]. assert (hdd : a_deserialize [] 0 d = d).
    { unfold a_deserialize. destruct d; cbn; [reflexivity | rewrite app_nil_r; reflexivity]. } rewrite hdd. clear hdd. subst l.
    assert (hd : exists d1 d2, d = d1 ++ v :: d2 /\ Forall2 (fun a w => ev a = Ok w) d1 l1).
    { exists (firstn (length l1) (a_data s)), (skipn (S (length l1)) (a_data s)). split; [reflexivity|].
      destruct hr as [h1 _]. apply (F2_firstn _ _ _ (length l1)) in h1.
      rewrite firstn_app, Nat.sub_diag, firstn_all, firstn_O, app_nil_r in h1. exact h1. }
    destruct hd as (d1 & d2 & -> & hd1).
    destruct (iter_stop ev prim expr v e d2 hv d1 l1 0 (a_fresh (d1 ++ v :: d2)) hd1) as (t' & ht' & _).
    + exists []. split; reflexivity.
    + cbn. rewrite map_length. reflexivity.
    + intros q _ hq. apply fresh_none, hq.
    + unfold a_iter. cbn [a_val a_fresh]. rewrite map_length.
      rewrite ht'. destruct e; try reflexivity. destruct hne; reflexivity.
Qed.

(** * Cases *)
(** an item type: integers, a string evaluates to its length, the empty string raises IndexError *)
Local Open Scope string_scope.
Local Open Scope list_scope.
Definition to_int (v : pyval) : res pyval :=
  match v with VInt _ => Ok v | VStr s => if eq_dec s "" then Err IndexError else Ok (VInt (Z.of_nat (String.length s))) | _ => Err TypeError end.
Example to_int_stable : Stable to_int.
Proof.
  intros v w h. unfold to_int in h. destruct v as [| | z | s | | | | ]; try discriminate; [injection h as <-; reflexivity|].
  destruct (eq_dec s ""); [discriminate|]. injection h as <-. reflexivity.
Qed.
Example array_history : LRun to_int [AAppend (VStr "four"); AInsert (-1) (VStr "a"); AReverse; APop 0; AIter] [VInt 1; VInt 2]
  [Ok VNone; Ok VNone; Ok VNone; Ok (VInt 4); Ok (VList [VInt 1; VInt 2; VInt 1])] [VInt 1; VInt 2; VInt 1].
Proof.
  eapply LR_cons; [apply (L_append _ _ (VInt 4)); reflexivity|]. cbn.
  eapply LR_cons; [apply (L_insert to_int (-1) (VStr "a") (VInt 1) [VInt 1; VInt 2] [VInt 4]); [apply (Ins_neg 3 2); repeat constructor | reflexivity]|]. cbn.
  eapply LR_cons; [apply L_reverse|]. cbn.
  eapply LR_cons; [apply (L_pop to_int 0 [] (VInt 4) [VInt 1; VInt 2; VInt 1]); apply (Ref_pos 4 0); repeat constructor|]. cbn.
  eapply LR_cons; [apply L_iter|]. apply LR_nil.
Qed.
Example array_run : fst (a_run to_int true (fun _ => false) false false [AAppend (VStr "four"); AInsert (-1) (VStr "a"); AReverse; APop 0; AIter]
    {| a_data := [VInt 1; VInt 2]; a_val := [VInt 1; VInt 2] |})
  = [Ok VNone; Ok VNone; Ok VNone; Ok (VInt 4); Ok (VList [VInt 1; VInt 2; VInt 1])].
Proof. reflexivity. Qed.
Example array_truncated : fst (a_iter to_int true (fun _ => false) (a_fresh [VStr "ab"; VStr ""; VInt 3])) = Ok [VInt 2].
Proof. reflexivity. Qed.
Example array_lazy_stale : a_run to_int true (fun _ => false) true false [AGet 0; ASet 0 (VInt 9); AGet 0; AReverse; AIter] (a_fresh [VInt 1; VInt 2])
  = ([Ok (VInt 1); Ok VNone; Ok (VInt 1); Ok VNone; Ok (VList [VInt 1; VInt 2])],
     {| a_data := [VInt 2; VInt 1]; a_val := [VInt 1; VInt 2] |}).
Proof. reflexivity. Qed.
Example array_unique_hashes : Hashes to_int true [AAppend (VStr "four"); AIter].
Proof.
  intros _. split; [|repeat constructor]. intros v w h. unfold to_int in h. destruct v; try discriminate; [injection h as <-; reflexivity|].
  destruct (eq_dec s ""); [discriminate|]. injection h as <-. reflexivity.
Qed.
Example array_unique : fst (a_run to_int true (fun _ => false) false true [AAppend (VInt 4); ALen; AAppend (VStr "a"); AIter] (a_fresh [VInt 1]))
  = [Err TypeError; Ok (VInt 2); Ok VNone; Ok (VList [VInt 1; VInt 4; VInt 1])].
Proof. reflexivity. Qed.
Example array_copies :
  a_copy to_int true (fun _ => false) false false [VInt 7] 2 {| a_data := []; a_val := [] |} = Err TypeError /\
  a_copy to_int true (fun _ => false) true false [VInt 7] 2 {| a_data := []; a_val := [] |}
    = Ok {| a_data := [VInt 7; VNone]; a_val := [VNone; VNone] |} /\
  a_copy to_int true (fun _ => false) false false [VInt 7] 1 {| a_data := []; a_val := [] |}
    = Ok {| a_data := [VInt 7]; a_val := [VInt 7] |}.
Proof. repeat split. Qed.

Print Assumptions array_is_a_list.
Print Assumptions lazy_array_is_a_list.
Print Assumptions accepted_operations_step.
Print Assumptions array_copy_same.
Print Assumptions lazy_assignment_ignored_refuted.
Print Assumptions lazy_reverse_ignored_refuted.
Print Assumptions insert_out_of_range_refuted.
Print Assumptions negative_insert_unchecked_refuted.
Print Assumptions rejected_insert_stays_refuted.
Print Assumptions index_error_truncates_refuted.
Print Assumptions lazy_slice_none_refuted.
Print Assumptions lazy_slice_assignment_refuted.
Print Assumptions rejected_assignment.
Print Assumptions empty_copy_refuted.
Print Assumptions short_copy_refuted.
Print Assumptions unique_append_refuted.
