(** C69. Relationships between classes. *)
From Verif Require Import Base Uri_Model Bracket_Model Rel_Model Rel_Spec Str_Proofs Op_Props Rel_Proofs.
Local Open Scope list_scope.

(** * what holds of any history *)
Section Any.
  Variable docs : dict name tsch.
  Variable fails : name -> option exn.

  Definition LdC (ld : name -> rst -> res fclass * rst) : Prop := forall u st fc st', ld u st = (Ok fc, st') ->
    busy st' = busy st /\ match fc with FProxy v => v = u /\ In u (busy st) | FReady _ => True end.
  Definition LdD (w : name) (ld : name -> rst -> res fclass * rst) : Prop := forall u st x st', In w (busy st) -> dget w (types st) = None ->
    ld u st = (x, st') -> In w (busy st') /\ dget w (types st') = None.

  Lemma new_rel_C ld id r st c st' : LdC ld -> new_rel fails ld id r st = (Ok c, st') -> busy st' = busy st.
  Proof.
    intros h e. unfold new_rel in e. destruct (r_foreign r); [|discriminate]. destruct (ld _ st) as [[fc|] st1] eqn:el; [|discriminate].
    destruct (h _ _ _ _ el) as [b _]. destruct (fails id); [discriminate|]. injection e as <- <-. exact b.
  Qed.
  Lemma back_C ld id fs l : LdC ld -> forall st x st', back_populate fails ld id fs l st = (Ok x, st') ->
    busy st' = busy st /\ forall n b, In (n, b) l -> exists f, b_foreign b = Some f /\ In (scope f id) (busy st).
  Proof.
    intros h. induction l as [|[n b] l IH]; intros st x st' e; cbn [back_populate] in e.
    - injection e as <- <-. split; [reflexivity|intros ? ? []].
    - destruct (b_foreign b) as [f|] eqn:ef; [|discriminate]. destruct (ld _ st) as [[[c|v]|] st1] eqn:el; [| |discriminate].
      + destruct (build_plain fails ld _ _ st1) as [[?|?] ?]; discriminate.
      + destruct (h _ _ _ _ el) as (b1 & ev & iv). destruct (IH _ _ _ e) as [b2 al]. split; [congruence|].
        intros n' b' [i|i]; [injection i as <- <-; eauto|]. rewrite <- b1. eauto.
  Qed.
  Lemma build_rel_C ld id r st c st' : LdC ld -> build_rel fails ld id r st = (Ok c, st') ->
    busy st' = busy st /\ (dget id (rels st) = None -> forall n b, In (n, b) (r_back r) -> exists f, b_foreign b = Some f /\ In (scope f id) (busy st)).
  Proof.
    intros h e. unfold build_rel in e. destruct (dget id (rels st)) eqn:en; [injection e as <- <-; split; [reflexivity|congruence]|].
    destruct (new_rel fails ld id r st) as [[c0|] st1] eqn:ew; [|discriminate]. pose proof (new_rel_C _ _ _ _ _ _ h ew) as b1.
    destruct (back_populate _ _ _ _ _ st1) as [[[]|] st2] eqn:eb; [|discriminate]. destruct (back_C _ _ _ _ h _ _ _ eb) as [b2 al].
    injection e as <- <-. cbn [busy reg_rel]. rewrite <- b1. split; [exact b2|]. intros _. exact al.
  Qed.
  Lemma load_keys_C ld u l : LdC ld -> forall st x st', load_keys ld u l st = (Ok x, st') -> busy st' = busy st.
  Proof.
    intros h. induction l as [|[k [[f|] bps]] l IH]; intros st x st' e; cbn [load_keys] in e; [injection e as <- <-; reflexivity| |discriminate].
    destruct (ld _ st) as [[fc|] st1] eqn:el; [|discriminate]. destruct (h _ _ _ _ el) as [b _]. rewrite <- b. eauto.
  Qed.
  Lemma add_rels_C ld u l : LdC ld -> forall d st x st', add_rels fails ld u l d st = (Ok x, st') ->
    busy st' = busy st.
  Proof.
    intros h. induction l as [|[k r] l IH]; intros d st x st' e; cbn [add_rels] in e; [injection e as <- <-; reflexivity|].
    destruct (build_rel fails ld _ r st) as [[c|] st1] eqn:eb; [|discriminate]. destruct (build_rel_C _ _ _ _ _ _ h eb) as [b _]. rewrite <- b. eauto.
  Qed.
  Lemma load_C n : LdC (load docs fails n).
  Proof.
    induction n as [|n IH]; intros u st fc st' e; cbn [load] in e; [discriminate|].
    destruct (dget u (types st)); [injection e as <- <-; auto|].
    destruct (mem_spec (EqDec_list ascii EqDec_ascii) u (busy st)) as [ib|nb]; [injection e as <- <-; auto|].
    destruct (dget u docs) as [t|]; [|discriminate]. unfold make_class in e.
    destruct (load_keys _ u (s_fks t) _) as [[x|] st1] eqn:e1; [|discriminate]. pose proof (load_keys_C _ _ _ IH _ _ _ e1) as b1.
    destruct (add_rels fails _ u _ [] st1) as [[d|] st2] eqn:e2; [|discriminate]. pose proof (add_rels_C _ _ _ IH _ _ _ _ e2) as b2.
    destruct (fails u); [discriminate|]. injection e as <- <-. split; [|exact I]. cbn [busy finish tick]. rewrite b2, b1. cbn [busy mark remove].
    destruct (eq_dec u u); [|congruence]. apply notin_remove. exact nb.
  Qed.

  Lemma new_rel_D w ld id r : LdD w ld -> forall st x st', In w (busy st) -> dget w (types st) = None -> new_rel fails ld id r st = (x, st') ->
    In w (busy st') /\ dget w (types st') = None.
  Proof.
    intros h st x st' i n e. unfold new_rel in e. destruct (r_foreign r); [|injection e as <- <-; auto].
    destruct (ld _ st) as [[fc|] st1] eqn:el; destruct (h _ _ _ _ i n el); [destruct (fails id)|]; injection e as <- <-; auto.
  Qed.
  Lemma build_plain_D w ld id r : LdD w ld -> forall st x st', In w (busy st) -> dget w (types st) = None -> build_plain fails ld id r st = (x, st') ->
    In w (busy st') /\ dget w (types st') = None.
  Proof.
    intros h st x st' i n e. unfold build_plain in e. destruct (dget id (rels st)); [injection e as <- <-; auto|].
    destruct (new_rel fails ld id r st) as [[c|] st1] eqn:ew; destruct (new_rel_D w ld id r h _ _ _ i n ew); injection e as <- <-; auto.
  Qed.
  Lemma back_D w ld id fs l : LdD w ld -> forall st x st', In w (busy st) -> dget w (types st) = None -> back_populate fails ld id fs l st = (x, st') ->
    In w (busy st') /\ dget w (types st') = None.
  Proof.
    intros h. induction l as [|[k b] l IH]; intros st x st' i n e; cbn [back_populate] in e; [injection e as <- <-; auto|].
    destruct (b_foreign b) as [f|]; [|injection e as <- <-; auto].
    destruct (ld _ st) as [[[c|v]|] st1] eqn:el; destruct (h _ _ _ _ i n el) as [i1 n1]; [|eauto|injection e as <- <-; auto].
    destruct (build_plain fails ld _ _ st1) as [[?|?] st2] eqn:eb; destruct (build_plain_D w ld _ _ h _ _ _ i1 n1 eb); injection e as <- <-; auto.
  Qed.
  Lemma build_rel_D w ld id r : LdD w ld -> forall st x st', In w (busy st) -> dget w (types st) = None -> build_rel fails ld id r st = (x, st') ->
    In w (busy st') /\ dget w (types st') = None.
  Proof.
    intros h st x st' i n e. unfold build_rel in e. destruct (dget id (rels st)); [injection e as <- <-; auto|].
    destruct (new_rel fails ld id r st) as [[c|] st1] eqn:ew; destruct (new_rel_D w ld id r h _ _ _ i n ew) as [i1 n1]; [|injection e as <- <-; auto].
    destruct (back_populate _ _ _ _ _ st1) as [[[]|] st2] eqn:eb; destruct (back_D w ld _ _ _ h _ _ _ i1 n1 eb); injection e as <- <-; auto.
  Qed.
  Lemma load_keys_D w ld u l : LdD w ld -> forall st x st', In w (busy st) -> dget w (types st) = None -> load_keys ld u l st = (x, st') ->
    In w (busy st') /\ dget w (types st') = None.
  Proof.
    intros h. induction l as [|[k [[f|] bps]] l IH]; intros st x st' i n e; cbn [load_keys] in e; [injection e as <- <-; auto| |injection e as <- <-; auto].
    destruct (ld _ st) as [[fc|] st1] eqn:el; destruct (h _ _ _ _ i n el); [eauto|injection e as <- <-; auto].
  Qed.
  Lemma add_rels_D w ld u l : LdD w ld -> forall d st x st', In w (busy st) -> dget w (types st) = None -> add_rels fails ld u l d st = (x, st') ->
    In w (busy st') /\ dget w (types st') = None.
  Proof.
    intros h. induction l as [|[k r] l IH]; intros d st x st' i n e; cbn [add_rels] in e; [injection e as <- <-; auto|].
    destruct (build_rel fails ld _ r st) as [[c|] st1] eqn:eb; destruct (build_rel_D w ld _ r h _ _ _ i n eb); [eauto|injection e as <- <-; auto].
  Qed.
  Lemma make_class_D w ld u t : LdD w ld -> forall st x st', In w (busy st) -> dget w (types st) = None -> make_class fails ld u t st = (x, st') ->
    In w (busy st') /\ dget w (types st') = None.
  Proof.
    intros h st x st' i n e. unfold make_class in e.
    destruct (load_keys _ u (s_fks t) _) as [[y|] st1] eqn:e1; destruct (load_keys_D w _ _ _ h _ _ _ i n e1) as [i1 n1]; [|injection e as <- <-; auto].
    destruct (add_rels fails _ u _ [] st1) as [[d|] st2] eqn:e2; destruct (add_rels_D w _ _ _ h _ _ _ _ i1 n1 e2) as [i2 n2]; [|injection e as <- <-; auto].
    destruct (fails u); injection e as <- <-; auto.
  Qed.
  Lemma load_D w n : LdD w (load docs fails n).
  Proof.
    induction n as [|n IH]; intros u st x st' i nt e; cbn [load] in e; [injection e as <- <-; auto|].
    destruct (dget u (types st)) eqn:et; [injection e as <- <-; auto|].
    destruct (mem_spec (EqDec_list ascii EqDec_ascii) u (busy st)) as [ib|nb]; [injection e as <- <-; auto|].
    destruct (dget u docs) as [t|]; [|injection e as <- <-; auto].
    destruct (make_class fails (load docs fails n) u t (mark u st)) as [[c|] st1] eqn:em;
      destruct (make_class_D w _ u t IH (mark u st) _ _ (or_intror i) nt em) as [i1 n1]; injection e as <- <-; auto.
    assert (ne : w <> u) by (intros ->; contradiction). split; [apply in_in_remove; assumption|]. cbn [types finish]. rewrite dget_dset_other; assumption.
  Qed.
  Lemma loads_D w n us : forall st, In w (busy st) -> dget w (types st) = None ->
    In w (busy (loads docs fails n us st)) /\ dget w (types (loads docs fails n us st)) = None.
  Proof.
    induction us as [|u us IH]; intros st i nt; cbn [loads]; [auto|].
    destruct (load docs fails n u st) as [x st1] eqn:e. destruct (load_D w n _ _ _ _ i nt e). cbn [snd]. auto.
  Qed.
End Any.

(** Loading a class loads every class its relationships and foreign keys lead to, directly or not, whatever the cycles
    and whatever was loaded before, and leaves none unfinished; the depth of the recursion is bounded by the number of
    classes. *)
Theorem load_reaches : forall docs fails n us u, Closed docs -> OneWay docs -> PlainIds docs -> NamesOnce docs ->
  (forall v, fails v = None) -> length docs < n -> dget u docs <> None ->
  exists c st, load docs fails n u (loads docs fails n us rst0) = (Ok (FReady c), st) /\ dget u (types st) = Some c /\ busy st = [] /\
    forall v, Reaches docs u v -> exists c', dget v (types st) = Some c' /\ t_id c' = v.
Proof.
  intros docs fails n us u cl ow pl no fi hn hu.
  assert (fr : forall st, free docs st < n).
  { intros st. unfold free. eapply Nat.le_lt_trans; [|exact hn].
    assert (le : forall (f : name -> bool) l, length (filter f l) <= length l) by (induction l as [|a l IH]; cbn; [auto|destruct (f a); cbn; lia]).
    etransitivity; [apply le|]. unfold dkeys. rewrite map_length. auto. }
  assert (hist : forall us st, Inv docs st -> Inv2 docs st -> busy st = [] ->
            Inv docs (loads docs fails n us st) /\ Inv2 docs (loads docs fails n us st) /\ busy (loads docs fails n us st) = []).
  { induction us0 as [|w us0 IH]; intros st inv inv2 b; cbn [loads]; [auto|].
    destruct (dget w docs) as [t|] eqn:ed.
    - destruct (load_succ docs fails ow pl cl no fi n w st inv inv2) as (fc & st1 & e & b1 & i1 & _); [congruence|apply fr|].
      rewrite e. cbn [snd]. destruct (load_ok docs fails ow pl n _ _ _ _ inv e) as (inv1 & _). apply IH; [exact inv1|exact i1|congruence].
    - assert (e : snd (load docs fails n w st) = st).
      { destruct n; [reflexivity|]. cbn [load]. destruct (dget w (types st)); [reflexivity|]. destruct (mem w (busy st)); [reflexivity|]. rewrite ed. reflexivity. }
      rewrite e. apply IH; assumption. }
  destruct (hist us rst0 (Inv0 docs)) as (inv & inv2 & b); [intros T t h; cbn in h; congruence|reflexivity|].
  destruct (load_succ docs fails ow pl cl no fi n u _ inv inv2 hu (fr _)) as (fc & st & e & b1 & i1 & f1).
  destruct (load_ok docs fails ow pl n _ _ _ _ inv e) as (inv1 & _ & hfc).
  rewrite b in b1. destruct (load_C docs fails n _ _ _ _ e) as [_ hp].
  destruct fc as [c|v]; [|destruct hp as [_ i]; rewrite b in i; destruct i].
  exists c, st. split; [exact e|]. split; [exact hfc|]. split; [exact b1|].
  assert (all : forall a v, Reaches docs a v -> dget a (types st) <> None -> dget v (types st) <> None).
  { induction 1 as [a|a t v w ed lv r IH]; intros ha; [exact ha|]. apply IH.
    destruct (i1 a t ha ed v lv) as [h|h]; [rewrite b1 in h; destruct h|exact h]. }
  intros v r. specialize (all u v r ltac:(congruence)). destruct (dget v (types st)) as [c'|] eqn:ev; [|congruence].
  exists c'. split; [reflexivity|]. exact (proj1 (i_types _ _ inv1 _ _ ev)).
Qed.

(** Whatever was loaded, with failures or not: a finished class lists every relationship its schema asks for, each one
    is the class registered for it, and it describes what the schema asks for under that name. *)
Theorem relationships_listed : forall docs fails n us u c, OneWay docs -> PlainIds docs ->
  dget u (types (loads docs fails n us rst0)) = Some c ->
  exists t, dget u docs = Some t /\ t_pk c = s_pk t /\
    (forall k r, Asked t k r -> exists c', dget k (t_rels c) = Some c') /\
    (forall k c', dget k (t_rels c) = Some c' ->
       dget (u ++ list_ascii_of_string "/relationships/" ++ k) (rels (loads docs fails n us rst0)) = Some c' /\
       exists r, Asked t k r /\ Describes docs u k r c').
Proof.
  intros docs fails n us u c ow pl e. destruct (loads_ok docs fails ow pl n us rst0 (Inv0 docs)) as [inv _].
  destruct (i_types _ _ inv _ _ e) as (_ & t & h1 & h2 & h3 & h4). exists t. auto.
Qed.

(** Loading more never replaces a class or a relationship. *)
Theorem relationships_kept : forall docs fails n us more, OneWay docs -> PlainIds docs ->
  let before := loads docs fails n us rst0 in let after := loads docs fails n more before in
  (forall u c, dget u (types before) = Some c -> dget u (types after) = Some c) /\
  (forall id c, dget id (rels before) = Some c -> dget id (rels after) = Some c).
Proof.
  intros docs fails n us more ow pl before after. destruct (loads_ok docs fails ow pl n us rst0 (Inv0 docs)) as [inv _].
  destruct (loads_ok docs fails ow pl n more _ inv) as [_ [h1 h2 _ _]]. auto.
Qed.

(** A class whose construction raised is never finished: whatever is loaded afterwards it stays a proxy without a class. *)
Theorem failed_class_refuted : forall docs fails n u t st e st' us, dget u docs = Some t -> dget u (types st) = None -> ~ In u (busy st) ->
  load docs fails (S n) u st = (Err e, st') ->
  forall m, load docs fails (S m) u (loads docs fails n us st') = (Ok (FProxy u), loads docs fails n us st').
Proof.
  intros docs fails n u t st e st' us ed nt nb el m.
  assert (h : In u (busy st') /\ dget u (types st') = None).
  { cbn [load] in el. rewrite nt in el. rewrite (proj2 (mem_not_In (EqDec_list ascii EqDec_ascii) u (busy st)) nb) in el. rewrite ed in el.
    destruct (make_class fails (load docs fails n) u t (mark u st)) as [[c|] st1] eqn:em; [discriminate|]. injection el as <- <-.
    eapply make_class_D; [apply load_D| | |exact em]; [left; reflexivity|exact nt]. }
  destruct h as [i nt']. destruct (loads_D docs fails u n us st' i nt') as [i2 n2]. cbn [load]. rewrite n2.
  rewrite (proj2 (mem_In (EqDec_list ascii EqDec_ascii) u _) i2). reflexivity.
Qed.

(** A relationship that asks for one back is only ever built when the other class is still under construction, and
    then without the one back: in all other cases building it raises. *)
Theorem back_population_refuted : forall docs fails n id r st k b, dget id (rels st) = None -> In (k, b) (r_back r) ->
  (forall f, b_foreign b = Some f -> ~ In (scope f id) (busy st)) ->
  exists e st', build_rel fails (load docs fails n) id r st = (Err e, st').
Proof.
  intros docs fails n id r st k b nr i nb. destruct (build_rel fails (load docs fails n) id r st) as [[c|e] st'] eqn:eb; [|eauto].
  destruct (build_rel_C _ _ _ _ _ _ _ (load_C docs fails n) eb) as [_ h]. destruct (h nr k b i) as (f & ef & hf). destruct (nb f ef hf).
Qed.
(** ... with a TypeError when the other class can be loaded and the relationship itself and the one back can be made *)
Theorem back_population_error : forall fails ld id r st f fc st1 k b rest f' c st2,
  dget id (rels st) = None -> r_foreign r = Some f -> ld (scope f id) st = (Ok fc, st1) -> (forall v, fails v = None) ->
  r_back r = (k, b) :: rest -> b_foreign b = Some f' -> ld (scope f' id) (tick st1) = (Ok (FReady c), st2) ->
  (forall v s, exists x s', ld v s = (Ok x, s')) ->
  exists st', build_rel fails ld id r st = (Err TypeError, st').
Proof.
  intros fails ld id r st f fc st1 k b rest f' c st2 nr ef el fi er eb el2 all. unfold build_rel, new_rel. rewrite nr, ef, el, fi, er.
  cbn [back_populate rc_schema]. rewrite eb, el2. unfold build_plain, new_rel. cbn [r_foreign r_back].
  destruct (dget _ (rels st2)); [eauto|]. destruct (all (scope (owner id) (rid (scope f id) (b_text b))) st2) as (x & s & ->). rewrite fi. eauto.
Qed.

(** [_one2many] is the contrary of its name. *)
Theorem one_to_many_refuted : forall fails ld id r st c st', dget id (rels st) = None -> build_rel fails ld id r st = (Ok c, st') ->
  (rc_o2m c = true <-> ~ exists a b, rc_card c = a ++ list_ascii_of_string "OneTo" ++ b) /\
  (r_card r = Some (list_ascii_of_string "OneToMany") -> rc_o2m c = false) /\
  (r_card r = Some (list_ascii_of_string "ManyToOne") -> rc_o2m c = true).
Proof.
  intros fails ld id r st c st' nr e. unfold build_rel in e. rewrite nr in e.
  destruct (new_rel fails ld id r st) as [[c0|] st1] eqn:ew; [|discriminate].
  destruct (back_populate _ _ _ _ _ st1) as [[[]|] st2]; [|discriminate]. injection e as <- <-.
  unfold new_rel in ew. destruct (r_foreign r); [|discriminate]. destruct (ld _ st) as [[fc|] ?]; [|discriminate].
  destruct (fails id); [discriminate|]. injection ew as <- <-. cbn [rc_o2m rc_card].
  split; [|split; intros ->; reflexivity]. rewrite negb_true_iff, <- contains_sub_spec. fold (txt "OneTo").
  symmetry. apply not_true_iff_false.
Qed.

(** A property with a foreign key and nothing beside it gives a pointer, named after the property, to the class of the
    foreign key with the property as key; but its descriptor reads the item of the pointer's name and not the foreign key. *)
Theorem pointer_made : forall docs fails n us u c t p f, OneWay docs -> PlainIds docs -> NamesOnce docs ->
  dget u (types (loads docs fails n us rst0)) = Some c -> dget u docs = Some t -> In (p, (Some f, [])) (s_fks t) ->
  exists c', dget (p ++ list_ascii_of_string "_ptr") (t_rels c) = Some c' /\ rc_keys c' = [p] /\
    rc_schema c' = scope f (u ++ list_ascii_of_string "/relationships/" ++ p ++ list_ascii_of_string "_ptr").
Proof.
  intros docs fails n us u c t p f ow pl no e ed i. destruct (relationships_listed docs fails n us u c ow pl e) as (t' & ed' & _ & h1 & h2).
  rewrite ed in ed'. injection ed' as <-. pose proof (A_pointer t p (Some f) i) as a.
  destruct (h1 _ _ a) as [c' ec]. exists c'. split; [exact ec|]. destruct (h2 _ _ ec) as (_ & r & ar & d).
  rewrite (no _ _ _ _ _ ed ar a) in d. destruct d as (d1 & _ & d3 & _ & d5 & _). split; [apply d5; discriminate|].
  rewrite (d3 f eq_refl), d1. reflexivity.
Qed.
Lemma desc_self l : forall d : dict name name, (forall k x, dget k d = Some x -> x = k) ->
  (forall k x, dget k (fold_left (fun acc (p : name * rsch) => dset (fst p) (fst p) acc) l d) = Some x -> x = k) /\
  (forall k, (dget k d <> None \/ exists r, In (k, r) l) -> dget k (fold_left (fun acc (p : name * rsch) => dset (fst p) (fst p) acc) l d) = Some k).
Proof.
  induction l as [|[a r] l IH]; intros d h; cbn [fold_left fst].
  - split; [exact h|]. intros k [n|(r & [])]. destruct (dget k d) eqn:e; [|congruence]. f_equal. exact (h _ _ e).
  - destruct (IH (dset a a d)) as [h1 h2].
    { intros k x. rewrite dget_dset. destruct (eq_dec k a) as [->|]; [congruence|apply h]. }
    split; [exact h1|]. intros k hk. apply h2. rewrite dget_dset. destruct (eq_dec k a) as [->|ne]; [left; discriminate|].
    destruct hk as [n|(r' & [i|i])]; [left; exact n|congruence|right; eauto].
Qed.
Theorem pointer_read_refuted : forall fails ld u t st c st' p f (find : nat -> res nat) (o : dict name nat),
  make_class fails ld u t st = (Ok c, st') -> In (p, (f, [])) (s_fks t) ->
  let q := p ++ list_ascii_of_string "_ptr" in
  dget q (t_desc c) = Some q /\
  (dget q o = None -> rd_get (fun o k => match dget k o with Some v => Ok v | None => Err KeyError end) find q o = Err KeyError) /\
  (forall v, dget p (rd_set (fun o k v => dset k v o) (fun v : nat => v) q v o) = dget p o).
Proof.
  intros fails ld u t st c st' p f find o e i q. unfold make_class in e.
  destruct (load_keys _ _ _ _) as [[x|] st1]; [|discriminate]. destruct (add_rels _ _ _ _ _ st1) as [[d|] st2]; [|discriminate].
  destruct (fails u); [discriminate|]. injection e as <- <-. cbn [t_desc]. split; [|split].
  - apply (proj2 (desc_self (pointers (s_fks t)) [] ltac:(discriminate))). right. eexists. unfold pointers. apply in_flat_map.
    exists (p, (f, [])). split; [exact i|left; reflexivity].
  - intros n. unfold rd_get. rewrite n. reflexivity.
  - intros v. unfold rd_set. apply dget_dset_other. unfold q. intros h. apply (f_equal (@length ascii)) in h. rewrite app_length in h. cbn in h. lia.
Qed.
(** with the descriptor made for the property itself, setting then reading would give the object back *)
Theorem descriptor_round_trip : forall (K V : Type) (find : K -> res V) (ident : V -> K) (p : name) (v : V) (o : dict name K),
  find (ident v) = Ok v ->
  rd_get (fun o k => match dget k o with Some v => Ok v | None => Err KeyError end) find p (rd_set (fun o k x => dset k x o) ident p v o) = Ok v.
Proof. intros K V find ident p v o h. unfold rd_get, rd_set. rewrite dget_dset_same. exact h. Qed.

(** What is missing raises: a relationship or a foreign key without foreign schema (TypeError), a class that no document
    describes (InvalidValue), an entry of 'backPopulates' without foreign schema (KeyError). A foreign key whose class
    cannot be loaded raises UnboundLocalError whatever the reason. *)
Theorem missing_parts : forall fails ld id st,
  (forall r, dget id (rels st) = None -> r_foreign r = None -> build_rel fails ld id r st = (Err TypeError, st)) /\
  (forall k bps l, load_keys ld id ((k, (None, bps)) :: l) st = (Err TypeError, st)) /\
  (forall k f bps l e st1, ld (scope f (id ++ list_ascii_of_string "/properties/" ++ k)) st = (Err e, st1) ->
     load_keys ld id ((k, (Some f, bps)) :: l) st = (Err UnboundLocalError, st1)) /\
  (forall fs k b l, b_foreign b = None -> back_populate fails ld id fs ((k, b) :: l) st = (Err KeyError, st)) /\
  (forall docs n u, dget u docs = None -> dget u (types st) = None -> ~ In u (busy st) -> load docs fails (S n) u st = (Err InvalidValue, st)).
Proof.
  intros fails ld id st. repeat split.
  - intros r e1 e2. unfold build_rel, new_rel. rewrite e1, e2. reflexivity.
  - intros k f bps l e st1 h. cbn [load_keys]. unfold pid, txt. rewrite h. reflexivity.
  - intros fs k b l e. cbn [back_populate]. rewrite e. reflexivity.
  - intros docs n u e1 e2 e3. cbn [load]. rewrite e2, (proj2 (mem_not_In (EqDec_list ascii EqDec_ascii) u (busy st)) e3), e1. reflexivity.
Qed.

(** * a small library: authors and books *)
Definition lib (s : string) : name := list_ascii_of_string ("lib#/$defs/" ++ s).
Definition to (s : string) : rsch := {| r_foreign := Some (list_ascii_of_string ("#/$defs/" ++ s)); r_card := None; r_keys := []; r_back := [] |}.
Definition library : dict name tsch :=
  [(lib "Author", {| s_pk := [txt "name"]; s_fks := []; s_rels := [(txt "books", to "Book")] |});
   (lib "Book", {| s_pk := [txt "isbn"]; s_fks := [(txt "author", (Some (txt "#/$defs/Author"), []))]; s_rels := [(txt "shelf", to "Shelf")] |});
   (lib "Shelf", {| s_pk := [txt "room"; txt "row"]; s_fks := []; s_rels := [(txt "books", to "Book")] |})].
Lemma library_asked u t k r : dget u library = Some t -> Asked t k r ->
  (u = lib "Author" /\ k = txt "books" /\ r = to "Book") \/ (u = lib "Book" /\ k = txt "shelf" /\ r = to "Shelf") \/
  (u = lib "Book" /\ k = txt "author_ptr" /\ r = {| r_foreign := Some (txt "#/$defs/Author"); r_card := None; r_keys := [txt "author"]; r_back := [] |}) \/
  (u = lib "Shelf" /\ k = txt "books" /\ r = to "Book").
Proof.
  intros e a. apply asked_list in a. apply dget_In in e. unfold library in e. cbn [In] in e.
  destruct e as [e|[e|[e|[]]]]; injection e as <- <-; cbn [s_rels s_fks pointers flat_map fst snd app In] in a.
  - destruct a as [a|[]]. injection a as <- <-. auto.
  - destruct a as [a|[a|[]]]; injection a as <- <-; [right; left|right; right; left]; repeat split; reflexivity.
  - destruct a as [a|[]]. injection a as <- <-. auto 6.
Qed.
Lemma library_fine : Closed library /\ OneWay library /\ PlainIds library /\ NamesOnce library.
Proof.
  split; [|split; [|split]].
  - intros u t e. split; [|split].
    + intros k r a. destruct (library_asked _ _ _ _ e a) as [(_ & _ & ->)|[(_ & _ & ->)|[(_ & _ & ->)|(_ & _ & ->)]]]; discriminate.
    + intros p f bps i. apply dget_In in e. destruct e as [e|[e|[e|[]]]]; injection e as <- <-; cbn in i; try contradiction. destruct i as [i|[]]. injection i as <- <- <-. discriminate.
    + intros v l. destruct l as [k r f a ef|p f bps i].
      * destruct (library_asked _ _ _ _ e a) as [(-> & -> & ->)|[(-> & -> & ->)|[(-> & -> & ->)|(-> & -> & ->)]]]; injection ef as <-; eexists; vm_compute; reflexivity.
      * apply dget_In in e. destruct e as [e|[e|[e|[]]]]; injection e as <- <-; cbn in i; try contradiction. destruct i as [i|[]]. injection i as <- <- <-. eexists. vm_compute. reflexivity.
  - intros u t k r e a. destruct (library_asked _ _ _ _ e a) as [(_ & _ & ->)|[(_ & _ & ->)|[(_ & _ & ->)|(_ & _ & ->)]]]; reflexivity.
  - intros u t e. assert (h : existsb (contains_sub (txt "/relationships")) (dkeys library) = false) by (vm_compute; reflexivity).
    intros h'. apply contains_sub_spec in h'. rewrite <- not_true_iff_false in h. apply h. apply existsb_exists. exists u. split; [eapply dget_Some_key; exact e|exact h'].
  - intros u t k r r' e a a'.
    destruct (library_asked _ _ _ _ e a) as [(-> & -> & ->)|[(-> & -> & ->)|[(-> & -> & ->)|(-> & -> & ->)]]];
      destruct (library_asked _ _ _ _ e a') as [(h & h' & ->)|[(h & h' & ->)|[(h & h' & ->)|(h & h' & ->)]]]; try reflexivity; discriminate.
Qed.
Definition no_fail : name -> option exn := fun _ => None.
Example library_loaded : exists c st, load library no_fail 4 (lib "Author") rst0 = (Ok (FReady c), st) /\
  dkeys (types st) = [lib "Shelf"; lib "Book"; lib "Author"] /\ dkeys (rels st) = [rid (lib "Shelf") (txt "books"); rid (lib "Book") (txt "shelf"); rid (lib "Book") (txt "author_ptr"); rid (lib "Author") (txt "books")] /\
  option_map (fun c => rc_class c) (dget (rid (lib "Book") (txt "author_ptr")) (rels st)) = Some (Under (lib "Author")) /\
  option_map (fun c => rc_keys c) (dget (rid (lib "Author") (txt "books")) (rels st)) = Some [txt "isbn"].
Proof. eexists _, _. vm_compute. repeat split; reflexivity. Qed.

(** Loading a relationship by its own identifier, before its class: the class lists one relationship, the registry holds
    another. *)
Theorem relationship_twice_refuted : exists docs rdocs id u k c st c', OneWay docs /\ PlainIds docs /\ Closed docs /\
  id = u ++ list_ascii_of_string "/relationships/" ++ k /\
  load_rel docs rdocs no_fail (S (length docs)) id rst0 = (Ok c, st) /\ dget id (rels st) = Some c /\
  option_map (fun t => dget k (t_rels t)) (dget u (types st)) = Some (Some c') /\ rc_obj c <> rc_obj c'.
Proof.
  exists library, (fun _ => Ok (to "Book")), (rid (lib "Author") (txt "books")), (lib "Author"), (txt "books").
  destruct library_fine as (h1 & h2 & h3 & _). eexists _, _, _.
  split; [exact h2|]. split; [exact h3|]. split; [exact h1|]. split; [reflexivity|]. vm_compute. repeat split; try reflexivity. discriminate.
Qed.
Example back_population_case : exists st', build_rel no_fail (load library no_fail 4) (rid (lib "Author") (txt "works"))
  {| r_foreign := Some (txt "#/$defs/Book"); r_card := None; r_keys := []; r_back := [(txt "writer", {| b_foreign := Some (txt "#/$defs/Book"); b_text := txt "{...}" |})] |} rst0
  = (Err TypeError, st') /\ dget (rid (lib "Author") (txt "works")) (rels st') = None /\ dget (rid (lib "Book") (txt "{...}")) (rels st') <> None.
Proof. eexists. vm_compute. repeat split; try reflexivity. discriminate. Qed.

(** a class with such a relationship cannot be loaded, nor what refers to it be completed, afterwards *)
Definition faulty : dict name tsch :=
  [(lib "Author", {| s_pk := [txt "name"]; s_fks := []; s_rels := [(txt "works",
      {| r_foreign := Some (txt "#/$defs/Book"); r_card := None; r_keys := []; r_back := [(txt "writer", {| b_foreign := Some (txt "#/$defs/Book"); b_text := txt "{...}" |})] |})] |});
   (lib "Book", {| s_pk := [txt "isbn"]; s_fks := []; s_rels := [] |})].
Example failed_class_case : exists st', load faulty no_fail 3 (lib "Author") rst0 = (Err TypeError, st') /\ busy st' = [lib "Author"].
Proof. eexists. vm_compute. split; reflexivity. Qed.

Print Assumptions load_reaches.
Print Assumptions relationships_listed.
Print Assumptions relationships_kept.
Print Assumptions failed_class_refuted.
Print Assumptions back_population_refuted.
Print Assumptions back_population_error.
Print Assumptions one_to_many_refuted.
Print Assumptions pointer_made.
Print Assumptions pointer_read_refuted.
Print Assumptions descriptor_round_trip.
Print Assumptions relationship_twice_refuted.
Print Assumptions missing_parts.
