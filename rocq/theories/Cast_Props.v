(** C80: classes cast to a parent, and class properties. *)
From Verif Require Import Base Cast_Model Cast_Spec.
Local Open Scope list_scope.
Local Open Scope string_scope.
Local Open Scope list_scope.

Lemma underscored_spec k : underscored k = true <-> Private k.
Proof.
  unfold underscored, Private. destruct k as [|c s]; [split; [discriminate|intros (s & e); discriminate]|]. split.
  - intros e. apply beq_true in e. subst c. exists s. reflexivity.
  - intros (s' & e). injection e as -> ->. apply beq_refl.
Qed.

Section P.
  Context {V : Type}.
  Variable own : nat -> dict string V.
  Variable mro : nat -> list nat.

  Lemma chain_get_finds k order : forall v, chain_get V k (map own order) = Some v <-> Finds own order k v.
  Proof.
    induction order as [|b order IH]; intros v; cbn [map chain_get].
    - split; [discriminate|]. intros (l1 & b & l2 & e & _). destruct l1; discriminate.
    - destruct (dget k (own b)) as [w|] eqn:e.
      + split.
        * intros h. injection h as ->. exists [], b, order. split; [reflexivity|]. split; [exact e|intros c []].
        * intros ([|x l1] & b' & l2 & eo & h1 & h2); injection eo as <- eo.
          -- congruence.
          -- exfalso. apply (h2 b (or_introl eq_refl)). apply dget_Some_key in e. exact e.
      + rewrite IH. assert (hb : ~ In k (dkeys (own b))) by (apply dget_None; exact e). split.
        * intros (l1 & b' & l2 & -> & h1 & h2). exists (b :: l1), b', l2. split; [reflexivity|]. split; [exact h1|]. intros c [<-|i]; [exact hb|exact (h2 c i)].
        * intros ([|x l1] & b' & l2 & eo & h1 & h2); injection eo as <- eo.
          -- congruence.
          -- exists l1, b', l2. split; [exact eo|]. split; [exact h1|]. intros c i. apply h2. right. exact i.
  Qed.
  Lemma chain_get_lacks k order : chain_get V k (map own order) = None <-> Lacks own order k.
  Proof.
    induction order as [|b order IH]; cbn [map chain_get]; [split; [intros _ c []|reflexivity]|].
    destruct (dget k (own b)) as [w|] eqn:e.
    - split; [discriminate|]. intros h. exfalso. apply (h b (or_introl eq_refl)). apply dget_Some_key in e. exact e.
    - rewrite IH. split; [|intros h c i; apply h; right; exact i]. intros h c [<-|i]; [apply dget_None; exact e|exact (h c i)].
  Qed.
  Lemma chain_items_get k ds ks : dget k (chain_items V ks ds) = if mem k ks then chain_get V k ds else None.
  Proof.
    induction ks as [|x ks IH]; [reflexivity|]. cbn [chain_items mem]. destruct (chain_get V x ds) as [v|] eqn:e.
    - cbn [dget]. destruct (eq_dec k x) as [->|n]; [symmetry; exact e|exact IH].
    - rewrite IH. destruct (eq_dec k x) as [->|n]; [|reflexivity]. rewrite e. destruct (mem x ks); reflexivity.
  Qed.
  Lemma chain_get_in k ds v : chain_get V k ds = Some v -> In k (flat_map dkeys ds).
  Proof.
    induction ds as [|d ds IH]; [discriminate|]. cbn [chain_get flat_map]. destruct (dget k d) eqn:e; intros h; apply in_app_iff.
    - left. apply dget_Some_key in e. exact e.
    - right. exact (IH h).
  Qed.
  Lemma chain_dict_get k ds : dget k (chain_dict V ds) = chain_get V k ds.
  Proof.
    unfold chain_dict. rewrite chain_items_get. destruct (mem k (dedup (flat_map dkeys ds))) eqn:e; [reflexivity|].
    destruct (chain_get V k ds) eqn:g; [|reflexivity]. apply chain_get_in in g. apply mem_not_In in e. exfalso. apply e. apply dedup_In. exact g.
  Qed.
  Lemma chain_items_keys ks ds x : In x (dkeys (chain_items V ks ds)) -> In x ks.
  Proof. induction ks as [|k ks IH]; [intros []|]. cbn [chain_items]. destruct (chain_get V k ds); [intros [<-|i]; [left; reflexivity|]|intros i]; right; auto. Qed.
  Lemma chain_items_wf ks ds : NoDup ks -> dwf (chain_items V ks ds).
  Proof.
    induction ks as [|k ks IH]; intros h; [apply dwf_nil|]. inversion h; subst. cbn [chain_items]. destruct (chain_get V k ds); [|auto].
    unfold dwf. cbn. constructor; [|apply IH; assumption]. intros i. apply chain_items_keys in i. contradiction.
  Qed.
  Lemma update_get k e : forall d, dwf e -> dget k (update V d e) = match dget k e with Some v => Some v | None => dget k d end.
  Proof.
    induction e as [|[x v] e IH]; intros d h; [reflexivity|]. inversion h as [|a b ha hb]; subst. cbn [update dget]. rewrite IH by exact hb.
    destruct (eq_dec k x) as [->|n].
    - assert (dget x e = None) as -> by (apply dget_None; exact ha). apply dget_dset_same.
    - destruct (dget k e); [reflexivity|]. apply dget_dset_other. exact n.
  Qed.
  Lemma filter_wf (p : string * V -> bool) (d : dict string V) : dwf d -> dwf (filter p d).
  Proof.
    unfold dwf. induction d as [|[k v] d IH]; intros h; [constructor|]. inversion h; subst. cbn [filter]. destruct (p (k, v)); [|auto].
    cbn. constructor; [|auto]. intros i. apply in_map_iff in i. destruct i as (y & e & i). apply filter_In in i. apply H1. rewrite <- e. apply in_map. apply i.
  Qed.
  Lemma public_get k (d : dict string V) : dget k (filter (fun kv => negb (underscored (fst kv))) d) = if underscored k then None else dget k d.
  Proof.
    induction d as [|[x v] d IH]; [destruct (underscored k); reflexivity|]. cbn [filter fst].
    destruct (underscored x) eqn:u; cbn [negb dget].
    - rewrite IH. destruct (underscored k) eqn:uk; [reflexivity|]. destruct (eq_dec k x) as [->|n]; [congruence|reflexivity].
    - destruct (eq_dec k x) as [->|n]; [rewrite u; reflexivity|exact IH].
  Qed.

  Notation outside := (fun cls other => filter (fun b => negb (mem b (mro other))) (mro cls)).
  Lemma cast_get cls other m k : class_casted_as V own mro cls other = Ok m ->
    made_get V own mro m k = match (if underscored k then None else chain_get V k (map own (mro other))) with
                             | Some v => Some v
                             | None => match chain_get V k (map own (outside cls other)) with
                                       | Some v => Some v
                                       | None => chain_get V k (map own (mro other))
                                       end
                             end.
  Proof.
    unfold class_casted_as. destruct (mem other (mro cls)); [|discriminate]. intros h. injection h as <-. unfold made_get. cbn [m_attrs m_base].
    rewrite update_get by (apply filter_wf, chain_items_wf, dedup_NoDup). rewrite public_get, !chain_dict_get. destruct (underscored k); [reflexivity|].
    destruct (chain_get V k (map own (mro other))); reflexivity.
  Qed.

  (** A class can be cast to its parents only. *)
  Theorem cast_parents_only : forall cls other, (exists m, class_casted_as V own mro cls other = Ok m) <-> In other (mro cls).
  Proof.
    intros cls other. unfold class_casted_as. split.
    - intros (m & h). apply (mem_In _). destruct (mem other (mro cls)); [reflexivity|discriminate].
    - intros h. apply (mem_In _) in h. rewrite h. eexists. reflexivity.
  Qed.
  Theorem cast_refused : forall cls other, ~ In other (mro cls) -> class_casted_as V own mro cls other = Err AttributeError.
  Proof. intros cls other h. unfold class_casted_as. rewrite (proj2 (mem_not_In _ _ _) h). reflexivity. Qed.

  (** What the parent defines and does not begin with an underscore is the parent's. *)
  Theorem cast_public : forall cls other m k v, class_casted_as V own mro cls other = Ok m -> ~ Private k -> Finds own (mro other) k v ->
    made_get V own mro m k = Some v.
  Proof.
    intros cls other m k v h hp hf. rewrite (cast_get _ _ _ _ h). apply chain_get_finds in hf. rewrite hf.
    destruct (underscored k) eqn:u; [|reflexivity]. apply underscored_spec in u. contradiction.
  Qed.
  (** What the parent does not define is the class's own. *)
  Theorem cast_own : forall cls other m k v, class_casted_as V own mro cls other = Ok m -> Lacks own (mro other) k ->
    (made_get V own mro m k = Some v <-> Finds own (mro cls) k v).
  Proof.
    intros cls other m k v h hl. rewrite (cast_get _ _ _ _ h). assert (e := proj2 (chain_get_lacks k (mro other)) hl). rewrite e.
    rewrite <- (chain_get_finds k (mro cls)).
    assert (E : forall l, chain_get V k (map own (filter (fun b => negb (mem b (mro other))) l)) = chain_get V k (map own l)).
    { induction l as [|b l IH]; [reflexivity|]. cbn [filter map chain_get]. destruct (mem b (mro other)) eqn:mb; cbn [negb].
      - apply (mem_In _) in mb. assert (dget k (own b) = None) as -> by (apply dget_None, hl; exact mb). exact IH.
      - cbn [map chain_get]. destruct (dget k (own b)); [reflexivity|exact IH]. }
    rewrite E. destruct (underscored k); destruct (chain_get V k (map own (mro cls))); reflexivity.
  Qed.
  (** Other names beginning with an underscore keep the value they have in the class, when the classes added come before those of the
      parent, as in single inheritance. *)
  Theorem cast_private : forall cls other m k v added, class_casted_as V own mro cls other = Ok m -> Private k ->
    mro cls = added ++ mro other -> (forall b, In b added -> ~ In b (mro other)) ->
    (made_get V own mro m k = Some v <-> Finds own (mro cls) k v).
  Proof.
    intros cls other m k v added h hp he hd. rewrite (cast_get _ _ _ _ h). assert (u : underscored k = true) by (apply underscored_spec; exact hp). rewrite u.
    rewrite <- (chain_get_finds k (mro cls)). rewrite he. rewrite filter_app, map_app, map_app.
    assert (e1 : filter (fun b => negb (mem b (mro other))) added = added).
    { apply filter_all. intros b i. rewrite (proj2 (mem_not_In _ _ _) (hd b i)). reflexivity. }
    assert (e2 : filter (fun b => negb (mem b (mro other))) (mro other) = []).
    { apply filter_none. intros b i. rewrite (proj2 (mem_In _ _ _) i). reflexivity. }
    rewrite e1, e2. cbn [map]. rewrite app_nil_r. clear. induction added as [|b l IH]; cbn [map chain_get app]; [reflexivity|].
    destruct (dget k (own b)); [reflexivity|exact IH].
  Qed.
End P.
Print Assumptions cast_parents_only. Print Assumptions cast_refused. Print Assumptions cast_public. Print Assumptions cast_own. Print Assumptions cast_private.

(** With a class mixed in behind the parent, a private name changes its value: 2 has the bases 0 and 1, all three end in 9. The class finds
    the value of its parent 0, the cast one that of 1. *)
Theorem cast_mixin_refuted : exists own mro m, Finds own (mro 2) "_a" 10 /\ Finds own (mro 0) "_a" 10 /\
  class_casted_as nat own mro 2 0 = Ok m /\ made_get nat own mro m "_a" = Some 11.
Proof.
  exists (fun c => match c with 0 => [("_a", 10)] | 1 => [("_a", 11)] | _ => [] end).
  exists (fun c => match c with 0 => [0; 9] | 1 => [1; 9] | 2 => [2; 0; 1; 9] | _ => [9] end).
  eexists. split; [exists [2], 0, [1; 9]; repeat split; intros c [<-|[]] []|]. split; [exists [], 0, [9]; repeat split; intros c []|].
  split; reflexivity.
Qed.
Print Assumptions cast_mixin_refuted.

Section CP.
  Context {V S : Type}.
  Variable mro : nat -> list nat.
  (** the property is the first thing the class finds under the name *)
  Definition Defined (w : world V S) (c : nat) (fget : nat -> S -> res V * S) (fset : option (nat -> V -> S -> res unit * S)) : Prop :=
    exists l1 b l2, mro c = l1 ++ b :: l2 /\ dget b (w_slots w) = Some (Prop_ fget fset) /\ forall d, In d l1 -> dget d (w_slots w) = None.
  Lemma find_slot_split (w : world V S) cs l1 b l2 s : cs = l1 ++ b :: l2 -> dget b (w_slots w) = Some s -> (forall d, In d l1 -> dget d (w_slots w) = None) ->
    find_slot V S cs (w_slots w) = Some s.
  Proof.
    intros ->. induction l1 as [|x l1 IH]; intros h hn; cbn [app find_slot]; [rewrite h; reflexivity|].
    rewrite (hn x (or_introl eq_refl)). apply IH; [exact h|]. intros d i. apply hn. right. exact i.
  Qed.
  (** Read through a class or through one of its instances, a class property is what its function gives for that class, and the
      property stays. *)
  Theorem class_property_read : forall w x fget fset, Defined w (class_of x) fget fset ->
    prop_get V S mro x w = (fst (fget (class_of x) (w_state w)), {| w_slots := w_slots w; w_state := snd (fget (class_of x) (w_state w)) |}).
  Proof.
    intros w x fget fset (l1 & b & l2 & e & h & hn). unfold prop_get. rewrite (find_slot_split w _ _ _ _ _ e h hn).
    destruct (fget (class_of x) (w_state w)). reflexivity.
  Qed.
  (** Assigned through an instance, its setter is called with the class; without a setter nothing changes and AttributeError is raised. *)
  Theorem class_property_set : forall w c fget fset v, Defined w c fget fset ->
    prop_set V S mro (Obj c) v w = match fset with
                                   | Some f => (fst (f c v (w_state w)), {| w_slots := w_slots w; w_state := snd (f c v (w_state w)) |})
                                   | None => (Err AttributeError, w)
                                   end.
  Proof.
    intros w c fget fset v (l1 & b & l2 & e & h & hn). unfold prop_set. rewrite (find_slot_split w _ _ _ _ _ e h hn).
    destruct fset as [f|]; [|reflexivity]. destruct (f c v (w_state w)). reflexivity.
  Qed.
  (** Assigned through the class, the setter is not called: the value takes the place of the property, whether it has a setter or not, and
      every later read through the class gives that value. *)
  Theorem class_property_lost_refuted : forall w c rest v, mro c = c :: rest ->
    exists w', prop_set V S mro (Cls c) v w = (Ok tt, w') /\ w_state w' = w_state w /\ prop_get V S mro (Cls c) w' = (Ok v, w') /\ prop_get V S mro (Obj c) w' = (Ok v, w').
  Proof.
    intros w c rest v e. eexists. split; [reflexivity|]. split; [reflexivity|]. unfold prop_get. cbn [class_of w_slots]. rewrite e. cbn [find_slot].
    rewrite dget_dset_same. split; reflexivity.
  Qed.
  (** A name no class of the resolution order has is refused when read, by the class and by its instances, and nothing changes. *)
  Theorem undefined_get : forall w x, (forall d, In d (mro (class_of x)) -> dget d (w_slots w) = None) -> prop_get V S mro x w = (Err AttributeError, w).
  Proof.
    intros w x h. unfold prop_get. assert (e : find_slot V S (mro (class_of x)) (w_slots w) = None); [|rewrite e; reflexivity].
    induction (mro (class_of x)) as [|d l IH]; [reflexivity|]. cbn [find_slot]. rewrite (h d (or_introl eq_refl)). apply IH. intros e i. apply h. right. exact i.
  Qed.
End CP.
Print Assumptions undefined_get. Print Assumptions class_property_read. Print Assumptions class_property_set. Print Assumptions class_property_lost_refuted.

(** * Examples *)
(** tests/test_utils.py:101-118: B(A) cast as A has the method of A and the private name of B *)
Example cast_ex :
  let own c := match c with 1 => [("_a", "sunshine"); ("f", "f of B")] | 0 => [("_a", "world"); ("f", "f of A"); ("g", "g of A")] | _ => [] end in
  let mro c := match c with 1 => [1; 0; 9] | 0 => [0; 9] | _ => [9] end in
  exists m, class_casted_as string own mro 1 0 = Ok m /\ made_get string own mro m "f" = Some "f of A" /\ made_get string own mro m "_a" = Some "sunshine"
            /\ made_get string own mro m "g" = Some "g of A" /\ mro 1 = [1] ++ mro 0.
Proof. eexists. split; [reflexivity|]. repeat split. Qed.
Example class_property_ex : let w := {| w_slots := [(0, Prop_ (fun c s => (Ok (c + s), s)) (Some (fun c v (s : nat) => (Ok tt, v + c))))]; w_state := 5 |} in
  let mro c := match c with 1 => [1; 0] | _ => [0] end in
  Defined (V := nat) mro w 1 (fun c s => (Ok (c + s), s)) (Some (fun c v s => (Ok tt, v + c))) /\ fst (prop_get nat nat mro (Obj 1) w) = Ok 6.
Proof. split; [|reflexivity]. exists [1], 0, []. repeat split. intros d [<-|[]]. reflexivity. Qed.
Example undefined_get_ex : let w := {| w_slots := [(0, Plain_ (S := nat) 3)]; w_state := 5 |} in
  prop_get nat nat (fun c => match c with 1 => [1; 2] | _ => [0] end) (Obj 1) w = (Err AttributeError, w).
Proof. apply undefined_get. intros d [<-|[<-|[]]]; reflexivity. Qed.
