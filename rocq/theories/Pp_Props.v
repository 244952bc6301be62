(** C75: printing objects. *)
From Verif Require Import Pp_Spec.
From Coq Require Import Lia.

Lemma set_nth_same {A} (x : A) : forall l n, n < length l -> nth_error (set_nth n x l) n = Some x.
Proof. induction l as [|y l IH]; intros [|n] h; cbn in *; try lia; [reflexivity|]. apply IH. lia. Qed.
Lemma set_nth_other {A} (x : A) : forall l n m, m <> n -> nth_error (set_nth n x l) m = nth_error l m.
Proof. induction l as [|y l IH]; intros [|n] [|m] h; cbn; try reflexivity; [congruence|]. apply IH. congruence. Qed.

Lemma Forall2_impl' {A B} (P Q : A -> B -> Prop) : (forall x y, P x y -> Q x y) -> forall l m, Forall2 P l m -> Forall2 Q l m.
Proof. intros h l m f. induction f; constructor; auto. Qed.
Definition map_res {A B} (f : A -> B) (r : res A) : res B := match r with Ok x => Ok (f x) | Err e => Err e end.

Section Printing.
  Variable classes : nat -> pcls.
  Variable order : list string -> list string.
  Hypothesis order_perm : forall l, Permutation (order l) l.
  Variable show_nat : nat -> list ascii.
  Notation repr := (repr classes order show_nat).
  Notation to_str := (to_str classes order show_nat).
  Notation step := (step classes order show_nat).
  Notation run := (run classes order show_nat).
  Notation print_order := (print_order order).

  (** printing changes nothing but the texts kept and the list of hidden members, which grows *)
  Definition same_but_texts (o o' : pobj) : Prop :=
    p_cls o' = p_cls o /\ p_data o' = p_data o /\ p_val o' = p_val o /\
    (forall t, p_repr o = Some t -> p_repr o' = Some t) /\ (forall t, p_str o = Some t -> p_str o' = Some t).
  Definition keeps (st st' : pst) : Prop :=
    (exists l, s_excl st' = s_excl st ++ l /\ forall k, In k l -> exists n o, the_obj st n = Some o /\ In k (c_readonly (classes (p_cls o)))) /\
    forall n, match the_obj st n with
              | Some o => exists o', the_obj st' n = Some o' /\ same_but_texts o o'
              | None => the_obj st' n = None
              end.
  Lemma keeps_refl st : keeps st st.
  Proof.
    split; [exists []; rewrite app_nil_r; split; [reflexivity|intros k []]|]. intros n. destruct (the_obj st n) as [o|]; [|reflexivity].
    exists o. split; [reflexivity|]. repeat split; auto.
  Qed.
  Lemma keeps_trans a b c : keeps a b -> keeps b c -> keeps a c.
  Proof.
    intros [(l & e & hl) ha] [(l' & e' & hl') hb]. split.
    - exists (l ++ l'). rewrite e', e, app_assoc. split; [reflexivity|]. intros k i. apply in_app_or in i. destruct i as [i|i]; [exact (hl k i)|].
      destruct (hl' k i) as (n & o & ho & hk). specialize (ha n). destruct (the_obj a n) as [o0|] eqn:e0; [|congruence].
      destruct ha as (o' & eo & hs). exists n, o0. split; [exact e0|]. assert (o' = o) by congruence. subst o'. rewrite <- (proj1 hs). exact hk.
    - intros n. specialize (ha n). specialize (hb n). destruct (the_obj a n) as [o|]; [|rewrite ha in hb; exact hb].
      destruct ha as (o1 & e1 & h1 & h2 & h3 & h4 & h5). rewrite e1 in hb. destruct hb as (o2 & e2 & g1 & g2 & g3 & g4 & g5).
      exists o2. split; [exact e2|]. repeat split; try congruence; auto.
  Qed.
  Lemma the_obj_set st n o m : the_obj (set_obj st n o) m = if Nat.eqb m n then match the_obj st n with Some _ => Some o | None => None end else the_obj st m.
  Proof.
    unfold the_obj, set_obj. cbn [s_heap]. destruct (Nat.eqb_spec m n) as [->|ne]; [|apply set_nth_other; exact ne].
    destruct (nth_error (s_heap st) n) eqn:e.
    - apply set_nth_same. apply nth_error_Some. congruence.
    - apply nth_error_None in e. apply nth_error_None. revert n e. induction (s_heap st) as [|y l IH]; intros [|n] e; cbn in *; try lia. specialize (IH n). lia.
  Qed.
  Lemma keeps_memo st n o o' : the_obj st n = Some o -> same_but_texts o o' -> keeps st (set_obj st n o').
  Proof.
    intros e h. split.
    - exists []. cbn [set_obj s_excl]. rewrite app_nil_r. split; [reflexivity|intros k []].
    - intros m. rewrite the_obj_set, e. destruct (Nat.eqb_spec m n) as [->|ne].
      + rewrite e. exists o'. split; [reflexivity|exact h].
      + destruct (the_obj st m) as [x|]; [|reflexivity]. exists x. split; [reflexivity|]. repeat split; auto.
  Qed.
  Lemma keeps_keep st st1 n o o1 o2 : keeps st st1 -> the_obj st n = Some o -> the_obj st1 n = Some o1 ->
    p_cls o2 = p_cls o1 /\ p_data o2 = p_data o1 /\ p_val o2 = p_val o1 ->
    (forall t, p_repr o = Some t -> p_repr o1 = Some t -> p_repr o2 = Some t) -> (forall t, p_str o = Some t -> p_str o1 = Some t -> p_str o2 = Some t) -> keeps st (set_obj st1 n o2).
  Proof.
    intros [hx h] e e1 (a1 & a2 & a3) hr hs. split; [exact hx|]. intros m. pose proof (h m) as hm. pose proof (h n) as hn. rewrite e, e1 in hn.
    destruct hn as (o' & eo & b1 & b2 & b3 & b4 & b5). injection eo as <-. rewrite the_obj_set, e1.
    destruct (Nat.eqb_spec m n) as [->|ne]; [|exact hm]. rewrite e. exists o2. split; [reflexivity|]. repeat split; try congruence; auto.
  Qed.
  Lemma entries_keeps rp sep o ks : (forall n st, keeps st (snd (rp n st))) -> forall st, keeps st (snd (entries rp sep o ks st)).
  Proof.
    intros hr. induction ks as [|k ks IH]; intros st; cbn [entries]; [apply keeps_refl|].
    set (r := match shown_value st o k with None => _ | Some (PLit t _) => _ | Some (PObj n) => _ end).
    assert (hk : keeps st (snd r)). { unfold r. destruct (shown_value st o k) as [[t b|n]|]; [apply keeps_refl|apply hr|apply keeps_refl]. }
    destruct (fst r); cbn [snd]; [|exact hk]. exact (keeps_trans _ _ _ hk (IH (snd r))).
  Qed.
  Lemma keeps_hide st n o : the_obj st n = Some o -> keeps st {| s_heap := s_heap st; s_excl := s_excl st ++ c_readonly (classes (p_cls o)) |}.
  Proof.
    intros e. split.
    - eexists. split; [reflexivity|]. intros k i. exists n, o. split; [exact e|exact i].
    - intros m. unfold the_obj. cbn [s_heap]. destruct (nth_error (s_heap st) m) as [x|]; [|reflexivity]. exists x. split; [reflexivity|]. repeat split; auto.
  Qed.
  Lemma repr_keeps : forall f n st, keeps st (snd (repr f n st)).
  Proof.
    induction f as [|f IH]; intros n st; cbn [Pp_Model.repr]; [apply keeps_refl|]. destruct (the_obj st n) as [o|] eqn:e; [|apply keeps_refl].
    destruct (p_repr o) as [t|] eqn:er; [apply keeps_refl|]. cbn [s_excl].
    set (st1 := {| s_heap := s_heap st; s_excl := _ |}). set (ks := print_order _ _ _). set (q := entries _ _ _ _ _).
    assert (h2 : keeps st1 (snd q)) by (apply entries_keeps; exact IH).
    assert (hq : keeps st (snd q)) by exact (keeps_trans _ st1 _ (keeps_hide st n o e) h2).
    destruct (fst q) as [a|x]; cbn [snd]; [|exact hq].
    destruct (the_obj (snd q) n) as [o'|] eqn:eo; [|exact hq]. apply (keeps_keep st (snd q) n o o' _ hq e eo).
    - repeat split; reflexivity.
    - intros t ht _. congruence.
    - intros t _ ht. cbn. exact ht.
  Qed.
  Lemma to_str_keeps f n st : keeps st (snd (to_str f n st)).
  Proof.
    unfold Pp_Model.to_str. destruct (the_obj st n) as [o|] eqn:e; [|apply keeps_refl].
    destruct (p_str o) as [t|] eqn:er; [apply keeps_refl|].
    set (ks := print_order _ _ _). set (q := entries _ _ _ _ _).
    assert (hq : keeps st (snd q)) by (apply entries_keeps; exact (repr_keeps f)).
    destruct (fst q) as [a|x]; cbn [snd]; [|exact hq].
    destruct (the_obj (snd q) n) as [o'|] eqn:eo; [|exact hq]. apply (keeps_keep st (snd q) n o o' _ hq e eo).
    - repeat split; reflexivity.
    - intros t _ ht. cbn. exact ht.
    - intros t ht _. congruence.
  Qed.

  (** the entries *)
  Lemma shown_keeps st st' o k : keeps st st' -> shown_value st' o k = shown_value st o k.
  Proof.
    intros [_ h]. unfold shown_value. destruct (dget k (p_val o)) as [v|]; [|reflexivity].
    assert (is_true st' v = is_true st v) as ->; [|reflexivity]. destruct v as [[t b|n]|]; try reflexivity. unfold is_true. specialize (h n).
    destruct (the_obj st n) as [x|]; [|rewrite h; reflexivity]. destruct h as (x' & -> & _ & _ & -> & _). reflexivity.
  Qed.
  Lemma entries_spec rp sep o : (forall n st, keeps st (snd (rp n st))) -> forall ks st a, fst (entries rp sep o ks st) = Ok a ->
    Forall2 (fun k e => exists t, e = chars k ++ sep ++ shorten t /\ (shown_value st o k = None -> t = chars "None") /\
                                  (forall u b, shown_value st o k = Some (PLit u b) -> t = u)) ks a.
  Proof.
    intros hr. induction ks as [|k ks IH]; intros st a h; cbn [entries] in h; [injection h as <-; constructor|].
    set (r := match shown_value st o k with None => _ | Some (PLit t _) => _ | Some (PObj n) => _ end) in h.
    assert (hk : keeps st (snd r)). { unfold r. destruct (shown_value st o k) as [[t b|n]|]; [apply keeps_refl|apply hr|apply keeps_refl]. }
    destruct (fst r) as [t|x] eqn:er; [|discriminate]. cbn [fst snd] in h.
    destruct (fst (entries rp sep o ks (snd r))) as [a'|x] eqn:ea; [|discriminate]. cbn in h. injection h as <-. constructor.
    - exists t. split; [reflexivity|]. unfold r in er. split; [intros es; rewrite es in er; cbn [fst] in er; congruence|].
      intros u b es. rewrite es in er. cbn [fst] in er. congruence.
    - specialize (IH (snd r) a' ea). revert IH. apply Forall2_impl'. intros k' e (t' & h1 & h2 & h3). exists t'. split; [exact h1|].
      rewrite (shown_keeps st (snd r) o k' hk) in h2, h3. split; [exact h2|exact h3].
  Qed.
  Lemma print_order_spec c ex d : dwf d -> NoDup (print_order c ex d) /\ forall k, In k (print_order c ex d) <-> Printed c ex d k.
  Proof.
    intros w. assert (hn : NoDup (ordered order c d)).
    { unfold ordered. apply NoDup_app_intro.
      - apply (Permutation_NoDup (Permutation_sym (order_perm _))). apply NoDup_filter. exact w.
      - apply (Permutation_NoDup (Permutation_sym (order_perm _))). apply NoDup_filter. exact w.
      - intros k i j. apply (Permutation_in _ (order_perm _)) in i. apply (Permutation_in _ (order_perm _)) in j.
        apply filter_In in i. apply filter_In in j. destruct (mem k (c_required c)); [destruct j; discriminate|destruct i; discriminate]. }
    assert (hi : forall k, In k (ordered order c d) <-> In k (dkeys d)).
    { intros k. unfold ordered. rewrite in_app_iff. split.
      - intros [i|i]; apply (Permutation_in _ (order_perm _)) in i; apply filter_In in i; exact (proj1 i).
      - intros i. destruct (mem k (c_required c)) eqn:m; [left|right]; apply (Permutation_in _ (Permutation_sym (order_perm _))); apply filter_In;
          (split; [exact i|rewrite m; reflexivity]). }
    split; [unfold Pp_Model.print_order; apply NoDup_filter, NoDup_filter; exact hn|].
    intros k. unfold Pp_Model.print_order. rewrite !filter_In, hi. unfold included, Printed. split.
    - intros [[i hk] hd]. destruct (dkeys_dget _ _ i) as [v ev]. rewrite ev in hk, hd. exists v. split; [exact ev|].
      apply Bool.negb_true_iff in hd. split; [|exact hd]. apply Bool.orb_true_iff in hk. destruct hk as [hk|hk].
      + left. apply (mem_In EqDec_string). exact hk.
      + right. apply andb_prop in hk. destruct hk as [h1 h2]. apply Bool.negb_true_iff in h1. split; [apply (mem_not_In EqDec_string); exact h1|].
        destruct v; [discriminate|discriminate].
    - intros (v & ev & hk & hd). rewrite ev. split; [|rewrite hd; reflexivity]. split; [exact (dget_Some_key _ _ _ ev)|]. apply Bool.orb_true_iff.
      destruct hk as [hk|[h1 h2]]; [left; apply (mem_In EqDec_string); exact hk|]. right. apply (mem_not_In EqDec_string) in h1. rewrite h1. destruct v; [reflexivity|congruence].
  Qed.
  Lemma rest_spec n : rest show_nat (n - 10) = if Nat.ltb 10 n then [list_ascii_of_string "+" ++ show_nat (n - 10) ++ list_ascii_of_string "..."] else [].
  Proof.
    destruct (Nat.ltb_spec 10 n) as [h|h]; [|replace (n - 10) with 0 by lia; reflexivity]. destruct (n - 10) eqn:e; [lia|reflexivity].
  Qed.

  (** The text of an object, when it is not kept from before, shows each member that has a value other than its default, or is required,
      once, except those hidden: ten at most, then how many more. [repr] hides what is hidden in the process, and the read-only members
      of the class ... *)
  Theorem repr_shows : forall f n st st' t o, the_obj st n = Some o -> p_repr o = None -> dwf (p_data o) -> repr f n st = (Ok t, st') ->
    let c := classes (p_cls o) in
    exists es, Lists show_nat (list_ascii_of_string "=") (shown_value st o) (Printed c (s_excl st ++ c_readonly c) (p_data o)) es /\
               t = c_name c ++ list_ascii_of_string "(" ++ join (list_ascii_of_string ", ") es ++ list_ascii_of_string ")".
  Proof.
    intros [|f] n st st' t o eo er w h c; cbn [Pp_Model.repr] in h; [discriminate|]. rewrite eo, er in h. cbn [s_excl] in h. fold c in h.
    set (st1 := {| s_heap := s_heap st; s_excl := _ |}) in h. set (ks := print_order _ _ _) in h. set (q := entries _ _ _ _ _) in h.
    destruct (fst q) as [a|x] eqn:ea; [|discriminate]. injection h as ht _. destruct (print_order_spec c (s_excl st ++ c_readonly c) (p_data o) w) as [h1 h2]. fold ks in h1, h2.
    eexists. split; [|symmetry; exact ht]. unfold max_el. rewrite rest_spec. apply lists; [exact h1|exact h2|]. unfold q in ea.
    exact (entries_spec (repr f) _ o (repr_keeps f) _ st1 a ea).
  Qed.
  (** ... and [str] what is hidden in the process *)
  Theorem str_shows : forall f n st st' t o, the_obj st n = Some o -> p_str o = None -> dwf (p_data o) -> to_str f n st = (Ok t, st') ->
    exists es, Lists show_nat (list_ascii_of_string ": ") (shown_value st o) (Printed (classes (p_cls o)) (s_excl st) (p_data o)) es /\
               t = list_ascii_of_string "{" ++ join (list_ascii_of_string ", ") es ++ list_ascii_of_string "}".
  Proof.
    intros f n st st' t o eo er w h. unfold Pp_Model.to_str in h. rewrite eo, er in h. 
    set (ks := print_order _ _ _) in h. set (q := entries _ _ _ _ _) in h.
    destruct (fst q) as [a|x] eqn:ea; [|discriminate]. injection h as ht _. destruct (print_order_spec (classes (p_cls o)) (s_excl st) (p_data o) w) as [h1 h2]. fold ks in h1, h2.
    eexists. split; [|symmetry; exact ht]. unfold max_el. rewrite rest_spec. apply lists; [exact h1|exact h2|]. unfold q in ea.
    exact (entries_spec (repr f) _ o (repr_keeps f) _ st a ea).
  Qed.

  (** Printing again gives the same text and changes nothing *)
  Theorem printed_again : forall f n st t st', (repr f n st = (Ok t, st') -> forall g, repr (S g) n st' = (Ok t, st')) /\
                                               (to_str f n st = (Ok t, st') -> forall g, to_str g n st' = (Ok t, st')).
  Proof.
    intros f n st t st'. split.
    - intros h g. pose proof (repr_keeps f n st) as hk. rewrite h in hk. cbn [snd] in hk. destruct f as [|f]; cbn [Pp_Model.repr] in h; [discriminate|].
      destruct (the_obj st n) as [o|] eqn:e; [|discriminate]. destruct (p_repr o) as [u|] eqn:er.
      + injection h as -> ->. cbn [Pp_Model.repr]. rewrite e, er. reflexivity.
      + cbn [s_excl] in h. set (st1 := {| s_heap := s_heap st; s_excl := _ |}) in h. set (ks := print_order _ _ _) in h. set (q := entries _ _ _ _ _) in h.
        destruct (fst q) as [a|x]; [|discriminate]. injection h as ht hs.
        assert (h2 : keeps st1 (snd q)) by (apply entries_keeps; exact (repr_keeps f)). destruct h2 as [_ h2]. specialize (h2 n).
        change (the_obj st1 n) with (the_obj st n) in h2. rewrite e in h2. destruct h2 as (o' & eo & _). rewrite eo in hs.
        cbn [Pp_Model.repr]. rewrite <- hs at 1. rewrite the_obj_set, Nat.eqb_refl, eo. cbn [p_repr]. rewrite ht. reflexivity.
    - intros h g. unfold Pp_Model.to_str in h. destruct (the_obj st n) as [o|] eqn:e; [|discriminate]. destruct (p_str o) as [u|] eqn:er.
      + injection h as -> ->. unfold Pp_Model.to_str. rewrite e, er. reflexivity.
      + set (ks := print_order _ _ _) in h. set (q := entries _ _ _ _ _) in h.
        destruct (fst q) as [a|x]; [|discriminate]. injection h as ht hs.
        assert (h2 : keeps st (snd q)) by (apply entries_keeps; exact (repr_keeps f)). destruct h2 as [_ h2]. specialize (h2 n).
        rewrite e in h2. destruct h2 as (o' & eo & _). rewrite eo in hs.
        unfold Pp_Model.to_str. rewrite <- hs at 1. rewrite the_obj_set, Nat.eqb_refl, eo. cbn [p_str]. rewrite ht. reflexivity.
  Qed.

  (** What any history hides stays hidden, and is the read-only members of classes some object belongs to *)
  Lemma step_hidden f op st : exists l, s_excl (step f op st) = s_excl st ++ l /\
    forall k, In k l -> exists n o, the_obj st n = Some o /\ In k (c_readonly (classes (p_cls o))).
  Proof.
    destruct op; cbn [Pp_Model.step]; [exact (proj1 (repr_keeps f n st))|exact (proj1 (to_str_keeps f n st))| | |];
      (exists []; rewrite app_nil_r; split; [|intros ? []]; destruct (the_obj st n); reflexivity).
  Qed.
  Lemma step_cls f op st n : match the_obj st n with Some o => exists o', the_obj (step f op st) n = Some o' /\ p_cls o' = p_cls o | None => the_obj (step f op st) n = None end.
  Proof.
    assert (hk : forall st', keeps st st' -> match the_obj st n with Some o => exists o', the_obj st' n = Some o' /\ p_cls o' = p_cls o | None => the_obj st' n = None end).
    { intros st' [_ h]. specialize (h n). destruct (the_obj st n) as [o|]; [|exact h]. destruct h as (o' & e & h & _). exists o'. split; [exact e|exact h]. }
    destruct op as [m|m|m k v|m k v|m k v x]; cbn [Pp_Model.step]; [exact (hk _ (repr_keeps f m st))|exact (hk _ (to_str_keeps f m st))| | |];
      (destruct (the_obj st m) as [o|] eqn:e; [|destruct (the_obj st n) as [y|]; [exists y; split; reflexivity|reflexivity]];
       rewrite the_obj_set, e; destruct (Nat.eqb_spec n m) as [->|ne]; [rewrite e; eexists; split; reflexivity|];
       destruct (the_obj st n) as [y|]; [exists y; split; reflexivity|reflexivity]).
  Qed.
  Theorem hidden_history : forall f ops st, exists l, s_excl (run f ops st) = s_excl st ++ l /\
    forall k, In k l -> exists n o, the_obj st n = Some o /\ In k (c_readonly (classes (p_cls o))).
  Proof.
    intros f ops. induction ops as [|op ops IH]; intros st; [exists []; cbn; rewrite app_nil_r; split; [reflexivity|intros k []]|].
    cbn [Pp_Model.run fold_left]. destruct (step_hidden f op st) as (l1 & e1 & h1). destruct (IH (step f op st)) as (l2 & e2 & h2).
    unfold Pp_Model.run in e2. rewrite e2, e1. exists (l1 ++ l2). rewrite app_assoc. split; [reflexivity|]. intros k i. apply in_app_or in i.
    destruct i as [i|i]; [exact (h1 k i)|]. destruct (h2 k i) as (n & o & eo & hk). pose proof (step_cls f op st n) as hc.
    destruct (the_obj st n) as [y|] eqn:ey; [|congruence]. destruct hc as (o' & eo' & ec). exists n, y. split; [exact ey|]. assert (o' = o) by congruence. subst. rewrite <- ec. exact hk.
  Qed.
  (** Taking [repr] of an object whose text is not kept hides the read-only members of its class from then on ... *)
  Theorem repr_hides : forall f n st o k ops g, the_obj st n = Some o -> p_repr o = None -> In k (c_readonly (classes (p_cls o))) ->
    In k (s_excl (run g ops (snd (repr (S f) n st)))).
  Proof.
    intros f n st o k ops g e er i. destruct (hidden_history g ops (snd (repr (S f) n st))) as (l & el & _). rewrite el. apply in_or_app. left.
    cbn [Pp_Model.repr]. rewrite e, er. cbn [s_excl]. set (st1 := {| s_heap := s_heap st; s_excl := _ |}). set (q := entries _ _ _ _ _).
    assert (h2 : keeps st1 (snd q)) by (apply entries_keeps; exact (repr_keeps f)). destruct h2 as [(l' & e2 & _) _].
    assert (hq : In k (s_excl (snd q))) by (rewrite e2; cbn; rewrite !in_app_iff; left; right; exact i).
    destruct (fst q); [|exact hq]. cbn [snd]. destruct (the_obj (snd q) n); exact hq.
  Qed.
  (** ... so that the members of that name of any other object, of any class that does not require them, are not printed, and not
      serialised from a plain dictionary *)
  Theorem hidden_elsewhere_refuted : forall f n st o k ops g, the_obj st n = Some o -> p_repr o = None -> In k (c_readonly (classes (p_cls o))) ->
    let st' := run g ops (snd (repr (S f) n st)) in
    forall c d, dwf d -> ~ In k (c_required c) -> ~ Printed c (s_excl st') d k /\ ~ In k (serialized_members order c st' d).
  Proof.
    intros f n st o k ops g e er i st' c d w nr. pose proof (repr_hides f n st o k ops g e er i) as hi. fold st' in hi.
    assert (hp : ~ Printed c (s_excl st') d k). { intros (v & ev & [h|[h _]] & _); [exact (nr h)|exact (h hi)]. }
    split; [exact hp|]. intros hk. apply hp. apply (proj2 (print_order_spec c (s_excl st') d w)). exact hk.
  Qed.
  (** without such a thing, a dictionary is serialised with all its members that have a value other than their default, and those required *)
  Theorem serialized_spec : forall c st d, dwf d -> NoDup (serialized_members order c st d) /\ forall k, In k (serialized_members order c st d) <-> Printed c (s_excl st) d k.
  Proof. intros c st d w. apply print_order_spec. exact w. Qed.

  (** The text is kept until a declared member of the very object is assigned: members added, members read and changes to the objects
      it refers to do not show *)
  Definition assigns (n : nat) (op : pop) : Prop := match op with OAssign m _ _ => m = n | _ => False end.
  Lemma kept_step f op st n o : the_obj st n = Some o -> ~ assigns n op ->
    exists o', the_obj (step f op st) n = Some o' /\ (forall t, p_repr o = Some t -> p_repr o' = Some t) /\ (forall t, p_str o = Some t -> p_str o' = Some t).
  Proof.
    intros e na. assert (hk : forall st', keeps st st' -> exists o', the_obj st' n = Some o' /\ (forall t, p_repr o = Some t -> p_repr o' = Some t) /\ (forall t, p_str o = Some t -> p_str o' = Some t)).
    { intros st' [_ h]. specialize (h n). rewrite e in h. destruct h as (o' & eo & _ & _ & _ & h1 & h2). exists o'. split; [exact eo|split; [exact h1|exact h2]]. }
    destruct op as [m|m|m k v|m k v|m k v x]; cbn [Pp_Model.step assigns] in *; [exact (hk _ (repr_keeps f m st))|exact (hk _ (to_str_keeps f m st))| | |];
      (destruct (the_obj st m) as [y|] eqn:ey; [|exists o; repeat split; auto]; rewrite the_obj_set, ey; destruct (Nat.eqb_spec n m) as [->|ne];
       [|exists o; repeat split; auto]); [congruence| |];
      (assert (y = o) by congruence; subst y; eexists; split; [reflexivity|]; split; intros t h; exact h).
  Qed.
  Theorem text_kept_refuted : forall f ops st n o, the_obj st n = Some o -> (forall op, In op ops -> ~ assigns n op) -> forall g t,
    (p_repr o = Some t -> fst (repr (S g) n (run f ops st)) = Ok t) /\ (p_str o = Some t -> fst (to_str g n (run f ops st)) = Ok t).
  Proof.
    intros f ops. induction ops as [|op ops IH]; intros st n o e na g t.
    - cbn [Pp_Model.run fold_left]. split; intros h; [cbn [Pp_Model.repr]|unfold Pp_Model.to_str]; rewrite e, h; reflexivity.
    - cbn [Pp_Model.run fold_left]. destruct (kept_step f op st n o e (na op (or_introl eq_refl))) as (o' & eo & h1 & h2).
      destruct (IH (step f op st) n o' eo (fun x i => na x (or_intror i)) g t) as [i1 i2]. split; intros h; [exact (i1 (h1 t h))|exact (i2 (h2 t h))].
  Qed.
  (** Assigning a declared member drops the texts: the next text shows the value assigned, as given *)
  Theorem assigned_shows : forall f st n o k v, the_obj st n = Some o -> exists o', the_obj (step f (OAssign n k v) st) n = Some o' /\
    p_repr o' = None /\ p_str o' = None /\ p_data o' = dset k v (p_data o) /\ shown_value (step f (OAssign n k v) st) o' k = v.
  Proof.
    intros f st n o k v e. cbn [Pp_Model.step]. rewrite e. eexists. split; [rewrite the_obj_set, Nat.eqb_refl, e; reflexivity|]. cbn.
    repeat split. unfold shown_value. cbn [p_val p_data]. rewrite !dget_dset_same. reflexivity.
  Qed.
  (** The value shown for a member is the one it was evaluated to when that counts as true, otherwise the one it was given. *)
  Theorem value_shown : forall st o k v w, dget k (p_val o) = Some v -> dget k (p_data o) = Some w ->
    (forall n, v = Some (PObj n) -> exists o', the_obj st n = Some o') ->
    (CountsTrue st v -> shown_value st o k = v) /\ (~ CountsTrue st v -> shown_value st o k = w).
  Proof.
    intros st o k v w e1 e2 hv. unfold shown_value. rewrite e1, e2.
    assert (h : is_true st v = true <-> CountsTrue st v).
    { unfold is_true. split.
      - destruct v as [[t b|n]|]; [intros ->; constructor| |discriminate]. destruct (hv n eq_refl) as (o' & eo). rewrite eo.
        destruct (p_val o') as [|[k' v'] l] eqn:ep; [discriminate|]. intros _. apply (ct_obj st n o' k' v' eo). rewrite ep. left. reflexivity.
      - intros [t|n o' k' v' eo i]; [reflexivity|]. rewrite eo. destruct (p_val o'); [destruct i|reflexivity]. }
    split; intros c; [apply h in c; rewrite c; reflexivity|]. destruct (is_true st v); [destruct (c (proj1 h eq_refl))|reflexivity].
  Qed.
  (** Reading a member keeps the expression it was given, or replaces another value by the one it was evaluated to; the texts stay. *)
  Theorem read_keeps : forall f st n o k v expr, the_obj st n = Some o -> exists o', the_obj (step f (ORead n k v expr) st) n = Some o' /\
    dget k (p_val o') = Some v /\ (expr = true -> p_data o' = p_data o) /\ (expr = false -> dget k (p_data o') = Some v) /\
    (forall k', k' <> k -> dget k' (p_val o') = dget k' (p_val o) /\ dget k' (p_data o') = dget k' (p_data o)) /\
    p_repr o' = p_repr o /\ p_str o' = p_str o.
  Proof.
    intros f st n o k v expr e. cbn [Pp_Model.step]. rewrite e. eexists. split; [rewrite the_obj_set, Nat.eqb_refl, e; reflexivity|]. cbn [p_val p_data p_repr p_str].
    rewrite dget_dset_same. split; [reflexivity|]. split; [intros ->; reflexivity|]. split; [intros ->; apply dget_dset_same|]. split; [|auto].
    intros k' ne. rewrite dget_dset_other by exact ne. split; [reflexivity|]. destruct expr; [reflexivity|apply dget_dset_other; exact ne].
  Qed.
End Printing.
Print Assumptions value_shown.
Print Assumptions read_keeps.
Print Assumptions repr_shows.
Print Assumptions str_shows.
Print Assumptions printed_again.
Print Assumptions hidden_history.
Print Assumptions repr_hides.
Print Assumptions hidden_elsewhere_refuted.
Print Assumptions serialized_spec.
Print Assumptions text_kept_refuted.
Print Assumptions assigned_shows.

(** * Two classes without relation, each with a member [x]; it is read-only in the first *)
Definition show (n : nat) : list ascii := [ascii_of_nat (48 + n)].
Definition lit (s : string) : option pval := Some (PLit (list_ascii_of_string s) true).
Definition ex_classes (n : nat) : pcls := match n with
  | 0 => {| c_name := list_ascii_of_string "A"; c_readonly := ["x"%string]; c_required := []; c_default := fun _ _ => false |}
  | _ => {| c_name := list_ascii_of_string "B"; c_readonly := []; c_required := ["r"%string]; c_default := fun k _ => String.eqb k "d" |} end.
Definition ex_obj (c : nat) (d : dict string (option pval)) : pobj := {| p_cls := c; p_data := d; p_val := d; p_repr := None; p_str := None |}.
Definition ex_st : pst := {| s_heap := [ex_obj 0 [("x"%string, lit "1"); ("y"%string, lit "2")];
                                        ex_obj 1 [("x"%string, lit "3"); ("d"%string, lit "0"); ("r"%string, None); ("o"%string, Some (PObj 0)); ("u"%string, None)]]; s_excl := [] |}.
Definition ex_repr := repr ex_classes (fun l => l) show.
Definition ex_str := to_str ex_classes (fun l => l) show.
Example printed_first : map_res (fun t => string_of_list_ascii t) (fst (ex_str 5 1 ex_st)) = Ok "{r: None, x: 3, o: A(y=2)}"%string.
Proof. reflexivity. Qed.
Example printed_after : map_res (fun t => string_of_list_ascii t) (fst (ex_str 5 1 (snd (ex_repr 5 0 ex_st)))) = Ok "{r: None, o: A(y=2)}"%string.
Proof. reflexivity. Qed.
Example serialized_before_after :
  (serialized_members (fun l => l) (ex_classes 1) ex_st [("x"%string, lit "1")], serialized_members (fun l => l) (ex_classes 1) (snd (ex_repr 5 0 ex_st)) [("x"%string, lit "1")]) = (["x"%string], []).
Proof. reflexivity. Qed.
Example printed_kept : fst (ex_str 5 1 (run ex_classes (fun l => l) show 5 [OStr 1; OAssign 0 "y" (lit "9"); OAdd 1 "z" (lit "4")] ex_st)) = fst (ex_str 5 1 ex_st).
Proof. reflexivity. Qed.
(** an object that refers to itself cannot be printed *)
Example printed_cycle : fst (ex_repr 50 0 {| s_heap := [ex_obj 0 [("me"%string, Some (PObj 0))]]; s_excl := [] |}) = Err RecursionError.
Proof. reflexivity. Qed.
