(** C84: the values and accessors a class gives to its properties. *)
From Verif Require Import Acc_Model Acc_Spec.
From Verif Require Build_Props.
Local Open Scope string_scope.
Local Open Scope list_scope.

(** * Lookups *)
Lemma find_attr_eq name attrs props dfl descs bases :
  find_attr name (Klass attrs props dfl descs bases) = match dget name attrs with Some a => Some a | None => first_attr name bases end.
Proof.
  cbn [find_attr]. destruct (dget name attrs) as [a|]; [reflexivity|]. induction bases as [|b bases IH]; [reflexivity|].
  cbn [first_attr]. destruct (find_attr name b); [reflexivity|exact IH].
Qed.
Lemma first_attr_spec name l : match first_attr name l with
  | Some f => exists l1 b l2, l = l1 ++ b :: l2 /\ (forall b', In b' l1 -> find_attr name b' = None) /\ find_attr name b = Some f
  | None => forall b, In b l -> find_attr name b = None
  end.
Proof.
  induction l as [|b l IH]; [intros b []|]. cbn [first_attr]. destruct (find_attr name b) as [f|] eqn:e.
  - exists [], b, l. repeat split; [intros b' []|exact e].
  - destruct (first_attr name l) as [f|].
    + destruct IH as (l1 & c & l2 & -> & h1 & h2). exists (b :: l1), c, l2. repeat split; [|exact h2]. intros b' [<-|i]; [exact e|exact (h1 b' i)].
    + intros b' [<-|i]; [exact e|exact (IH b' i)].
Qed.
Lemma first_attr_at name l1 b l2 f : (forall b', In b' l1 -> find_attr name b' = None) -> find_attr name b = Some f ->
  first_attr name (l1 ++ b :: l2) = Some f.
Proof.
  intros h e. induction l1 as [|c l1 IH]; cbn [app first_attr]; [rewrite e; reflexivity|].
  rewrite (h c (or_introl eq_refl)). apply IH. intros b' i. exact (h b' (or_intror i)).
Qed.
Lemma holds_spec a : match holds a with Some f => a = Some f /\ Counts f | None => forall f, a = Some f -> ~ Counts f end.
Proof.
  destruct a as [[f|v]|]; cbn [holds].
  - split; [reflexivity|exact I].
  - destruct (truthy v) eqn:e; [split; [reflexivity|exact e]|]. intros f [= <-]. cbn [Counts]. rewrite e. discriminate.
  - discriminate.
Qed.
Lemma holds_counts a f : a = Some f -> Counts f -> holds a = Some f.
Proof. intros -> c. destruct f as [f|v]; [reflexivity|]. cbn [holds Counts] in *. rewrite c. reflexivity. Qed.
Lemma chain_own {V} (o : dict string V) bs p v : dget p o = Some v -> dget p (Build_Model.chain o bs) = Some v.
Proof. intros e. rewrite Build_Props.chain_get. cbn [find]. unfold dmem. rewrite e. exact e. Qed.
Lemma chain_rest {V} (o : dict string V) bs p : dget p o = None ->
  dget p (Build_Model.chain o bs) = match find (fun m => dmem p m) bs with Some m => dget p m | None => None end.
Proof. intros e. rewrite Build_Props.chain_get. cbn [find]. unfold dmem at 1. rewrite e. reflexivity. Qed.
Lemma chain_keys_nodup {V} (o : dict string V) bs : dwf (Build_Model.chain o bs).
Proof.
  unfold dwf, Build_Model.chain. cbv zeta. generalize (o :: bs) as ms. intros ms. pose proof (dedup_NoDup _ (flat_map dkeys ms)) as nd.
  unfold dkeys at 1. induction (dedup (flat_map dkeys ms)) as [|k l IH]; [constructor|]. inversion nd as [|? ? ni nd']. subst. cbn [flat_map]. rewrite map_app.
  assert (incl_ : forall x, In x (map fst (flat_map (fun k => match find (fun m => dmem k m) ms with
                     | Some m => match dget k m with Some v => [(k, v)] | None => [] end | None => [] end) l)) -> In x l).
  { intros x i. apply in_map_iff in i. destruct i as ([y v] & <- & i). apply in_flat_map in i. destruct i as (z & iz & i). cbn [fst].
    destruct (find _ ms) as [m|]; [|destruct i]. destruct (dget z m) as [w|]; [|destruct i]. destruct i as [[= <- <-]|[]]. exact iz. }
  destruct (find (fun m => dmem k m) ms) as [m|]; [|exact (IH nd')]. destruct (dget k m) as [v|]; [|exact (IH nd')].
  cbn [map fst app]. constructor; [|exact (IH nd')]. intros i. apply ni. exact (incl_ k i).
Qed.
Lemma update_get {V} (d e : dict string V) p : dwf e -> dget p (update d e) = match dget p e with Some v => Some v | None => dget p d end.
Proof.
  revert d. induction e as [|[k v] e IH]; intros d w; [reflexivity|]. unfold update in *. cbn [fold_left fst snd]. inversion w as [|? ? ni w']. subst.
  rewrite IH by exact w'. cbn [dget]. destruct (eq_dec p k) as [->|n].
  - rewrite (proj2 (dget_None k e)) by exact ni. apply dget_dset_same.
  - destruct (dget p e); [reflexivity|]. apply dget_dset_other. exact n.
Qed.
Lemma update_keys {V} (d e : dict string V) p : In p (dkeys (update d e)) <-> In p (dkeys d) \/ In p (dkeys e).
Proof.
  revert d. induction e as [|[k v] e IH]; intros d; [cbn; tauto|]. unfold update in *. cbn [fold_left fst snd]. rewrite IH, In_dkeys_dset.
  cbn [dkeys map fst In]. intuition (subst; auto).
Qed.
Lemma update_wf {V} (d e : dict string V) : dwf d -> dwf (update d e).
Proof. revert d. induction e as [|[k v] e IH]; intros d w; [exact w|]. unfold update in *. cbn [fold_left]. apply IH, dwf_dset, w. Qed.
Lemma dget_map_snd {V W} (f : string * V -> W) (d : dict string V) p :
  dget p (map (fun kv => (fst kv, f kv)) d) = match dget p d with Some v => Some (f (p, v)) | None => None end.
Proof. induction d as [|[k v] d IH]; [reflexivity|]. cbn [map dget fst]. destruct (eq_dec p k) as [->|n]; [reflexivity|exact IH]. Qed.

Section Build.
  Variable clean : string -> string.
  Variable accepts : nat -> pyval -> bool.
  Variable store : nat -> pyval -> pyval.
  Notation Gives := (Gives clean). Notation Takes := (Takes clean). Notation Keeps := (Keeps clean). Notation Own := (Own clean). Notation Accessor := (Accessor clean).
  Notation Apart := (Apart clean). Notation acc_name := (acc_name clean). Notation build := (build clean accepts store).
  Notation collect := (collect clean accepts store).
  Definition gives_fun (d : cdef) (p : string) : option pyval := given_value (d_schema d) (dget (clean p) (d_attrs d)) p.
  Definition retyped (t : pty) (v : pyval) : pty := {| ty_schema := ty_schema t; ty_default := store (ty_schema t) v |}.
  Definition takes_fun (d : cdef) (p : string) : option pyval := if is_registered d p then None else gives_fun d p.

  Lemma gives_spec d p v : gives_fun d p = Some v <-> Gives d p v.
  Proof.
    unfold gives_fun, given_value. split.
    - destruct (some_val match dget (clean p) (d_attrs d) with Some (AVal w) => Some w | _ => None end) as [w|] eqn:e.
      + intros [= ->]. destruct (dget (clean p) (d_attrs d)) as [[f|w]|] eqn:e'; try discriminate.
        apply gives_attr; [destruct w; try discriminate; injection e as <-; exact e'|destruct w; try discriminate; injection e as <-; discriminate].
      + destruct (mem_spec _ p def_keys) as [i|n]; [discriminate|]. intros h.
        assert (hv : dget p (d_schema d) = Some v /\ v <> VNone).
        { destruct (dget p (d_schema d)) as [[]|]; cbn [some_val] in h; try discriminate h; injection h as <-; split; try reflexivity; discriminate. }
        apply gives_schema; [|exact n|apply hv|apply hv].
        intros w ew. rewrite ew in e. destruct w; try discriminate. reflexivity.
    - intros [w e n|w ha nk e n].
      + rewrite e. destruct w; cbn [some_val]; try reflexivity. destruct (n eq_refl).
      + assert (e1 : some_val match dget (clean p) (d_attrs d) with Some (AVal x) => Some x | _ => None end = None).
        { destruct (dget (clean p) (d_attrs d)) as [[f|x]|]; try reflexivity. rewrite (ha x eq_refl). reflexivity. }
        rewrite e1. destruct (mem_spec _ p def_keys) as [i|_]; [destruct (nk i)|]. rewrite e. destruct w; try reflexivity. destruct (n eq_refl).
  Qed.
  Lemma registered_spec d p : is_registered d p = false <-> (In p (dkeys (d_props d)) -> In p (d_open d)).
  Proof.
    unfold is_registered. rewrite andb_false_iff, dmem_false, negb_false_iff, mem_In. split; [tauto|].
    intros h. destruct (in_dec eq_dec p (dkeys (d_props d))) as [i|n]; [right; exact (h i)|left; exact n].
  Qed.
  Lemma takes_spec d p v : takes_fun d p = Some v <-> Takes d p v.
  Proof.
    unfold takes_fun, Acc_Spec.Takes. destruct (is_registered d p) eqn:e.
    - split; [discriminate|]. intros [_ h]. rewrite (proj2 (registered_spec d p) h) in e. discriminate.
    - pose proof (proj1 (registered_spec d p) e) as h. rewrite gives_spec. tauto.
  Qed.
  Lemma keeps_spec d p : takes_fun d p = None <-> Keeps d p.
  Proof.
    split.
    - intros e v h. apply takes_spec in h. rewrite e in h. discriminate.
    - intros h. destruct (takes_fun d p) as [v|] eqn:e; [|reflexivity]. apply takes_spec in e. destruct (h v e).
  Qed.

  (** the loop over the properties, told by the attributes of the body *)
  Lemma collect_spec reg schema bases props : forall attrs0 attrs,
    NoDup (map fst props) ->
    (forall p q, In p (map fst props) -> In q (map fst props) -> clean p = clean q -> p = q) ->
    (forall p, In p (map fst props) -> dget (clean p) attrs = dget (clean p) attrs0) ->
    match collect reg schema bases props attrs with
    | Ok (left_, extras, accs) =>
        (forall n, (forall p, In p (map fst props) -> clean p <> n) -> dget n left_ = dget n attrs) /\
        (forall p t, In (p, t) props -> match given_value schema (dget (clean p) attrs0) p with
                                        | Some v => accepts (ty_schema t) v = true /\ dget p extras = Some (rebuilt store (reg p) t v)
                                        | None => dget p extras = None
                                        end) /\
        (forall p, In p (dkeys extras) -> In p (map fst props)) /\ dwf extras /\
        (forall p, In p (map fst props) -> exists at_, dget p accs = Some (accessor clean at_ bases p) /\
            (forall n, (forall q, In q (map fst props) -> clean q <> n) -> dget n at_ = dget n attrs))
    | Err e => e = InvalidValue /\ exists p t v, In (p, t) props /\ given_value schema (dget (clean p) attrs0) p = Some v /\ accepts (ty_schema t) v = false
    end.
  Proof.
    induction props as [|[p t] props IH]; intros attrs0 attrs nd inj same.
    { cbn [collect]. repeat split; try (intros; contradiction); try reflexivity. apply dwf_nil. }
    cbn [collect]. cbn [map fst] in *. inversion nd as [|? ? ni nd']. subst.
    rewrite (same p (or_introl eq_refl)).
    assert (keep : forall q, In q (map fst props) -> dget (clean q) (ddel (clean p) attrs) = dget (clean q) attrs0).
    { intros q iq. rewrite dget_ddel. destruct (eq_dec (clean q) (clean p)) as [e|_]; [|exact (same q (or_intror iq))].
      exfalso. apply ni. rewrite <- (inj q p (or_intror iq) (or_introl eq_refl) e). exact iq. }
    specialize (IH attrs0 (ddel (clean p) attrs) nd' (fun a b ia ib => inj a b (or_intror ia) (or_intror ib)) keep).
    set (g := given_value schema (dget (clean p) attrs0) p) in *.
    destruct (match g with Some v => if accepts (ty_schema t) v then Ok [(p, rebuilt store (reg p) t v)] else Err InvalidValue | None => Ok [] end)
      as [extra|e] eqn:ex.
    - cbn [rbind]. destruct (collect reg schema bases props (ddel (clean p) attrs)) as [[[left_ extras] accs]|e].
      + destruct IH as (h1 & h2 & h3 & h4 & h5). cbn [rbind].
        assert (gone : dget p extras = None) by (apply dget_None; intros i; apply ni; exact (h3 p i)).
        assert (hx : (extra = [] /\ g = None) \/ exists v, g = Some v /\ accepts (ty_schema t) v = true /\ extra = [(p, rebuilt store (reg p) t v)]).
        { destruct g as [v|]; [|left; injection ex as <-; split; reflexivity]. destruct (accepts (ty_schema t) v) eqn:ea; [|discriminate].
          right. exists v. injection ex as <-. repeat split. exact ea. }
        assert (other : forall q, q <> p -> dget q (extra ++ extras) = dget q extras).
        { intros q n. destruct hx as [[-> _]|(v & _ & _ & ->)]; [reflexivity|]. cbn [app dget]. destruct (eq_dec q p) as [e|_]; [destruct (n e)|reflexivity]. }
        repeat split.
        * intros n hn. rewrite h1 by (intros q iq; exact (hn q (or_intror iq))). rewrite dget_ddel.
          destruct (eq_dec n (clean p)) as [e|_]; [|reflexivity]. destruct (hn p (or_introl eq_refl)). rewrite e. reflexivity.
        * intros q u [[= <- <-]|i].
          -- fold g. destruct hx as [[-> ->]|(v & -> & ea & ->)]; [exact gone|]. split; [exact ea|]. cbn [app dget]. destruct (eq_dec p p) as [_|n]; [reflexivity|destruct (n eq_refl)].
          -- specialize (h2 q u i). assert (n : q <> p) by (intros ->; apply ni; exact (in_map fst _ _ i)).
             rewrite (other q n). exact h2.
        * intros q i. unfold dkeys in i. rewrite map_app in i. apply in_app_or in i. destruct i as [i|i]; [|right; exact (h3 q i)].
          destruct hx as [[-> _]|(v & _ & _ & ->)]; [destruct i|]. destruct i as [i|[]]. left. exact i.
        * unfold dwf, dkeys. rewrite map_app. destruct hx as [[-> _]|(v & _ & _ & ->)]; [exact h4|]. cbn [map app fst]. constructor; [|exact h4].
          intros i. apply ni. exact (h3 p i).
        * intros q [<-|i]; cbn [dget].
          -- exists (ddel (clean p) attrs). destruct (eq_dec p p) as [_|n]; [|destruct (n eq_refl)]. split; [reflexivity|]. intros n hn. rewrite dget_ddel.
             destruct (eq_dec n (clean p)) as [e|_]; [|reflexivity]. destruct (hn p (or_introl eq_refl)). rewrite e. reflexivity.
          -- destruct (h5 q i) as (at_ & e1 & e2). destruct (eq_dec q p) as [->|_]; [destruct (ni i)|]. exists at_. split; [exact e1|].
             intros n hn. rewrite e2 by (intros r ir; exact (hn r (or_intror ir))). rewrite dget_ddel.
             destruct (eq_dec n (clean p)) as [e|_]; [|reflexivity]. destruct (hn p (or_introl eq_refl)). rewrite e. reflexivity.
      + cbn [rbind]. destruct IH as (he & q & u & v & i & eg & ea). split; [exact he|]. exists q, u, v. split; [right; exact i|]. split; assumption.
    - cbn [rbind]. destruct g as [v|] eqn:eg; [|discriminate]. destruct (accepts (ty_schema t) v) eqn:ea; [discriminate|]. injection ex as <-.
      split; [reflexivity|]. exists p, t, v. split; [left; reflexivity|]. split; [exact eg|exact ea].
  Qed.

  (** the properties of a class with its bases *)
  Definition names_of (d : cdef) (bases : list klass) : list string := dkeys (Build_Model.chain (d_props d) (map k_props bases)).
  Definition declared_fun (d : cdef) (bases : list klass) (p : string) : option pty := dget p (Build_Model.chain (d_props d) (map k_props bases)).

  Lemma find_base p (bases : list klass) : match find (fun m => dmem p m) (map k_props bases) with
    | Some m => exists l1 b l2 t, bases = l1 ++ b :: l2 /\ (forall b', In b' l1 -> dget p (k_props b') = None) /\ m = k_props b /\ dget p (k_props b) = Some t
    | None => forall b, In b bases -> dget p (k_props b) = None
    end.
  Proof.
    induction bases as [|b bases IH]; [intros b []|]. cbn [map find]. unfold dmem at 1. destruct (dget p (k_props b)) as [t|] eqn:e.
    - exists [], b, bases, t. repeat split; [intros b' []|exact e].
    - destruct (find _ (map k_props bases)) as [m|].
      + destruct IH as (l1 & c & l2 & t & -> & h1 & -> & h2). exists (b :: l1), c, l2, t. repeat split; [|exact h2].
        intros b' [<-|i]; [exact e|exact (h1 b' i)].
      + intros b' [<-|i]; [exact e|exact (IH b' i)].
  Qed.
  Lemma find_at p l1 b l2 t : (forall b', In b' l1 -> dget p (k_props b') = None) -> dget p (k_props b) = Some t ->
    find (fun m => dmem p m) (map k_props (l1 ++ b :: l2)) = Some (k_props b).
  Proof.
    intros h e. induction l1 as [|c l1 IH]; cbn [app map find]; unfold dmem at 1; [rewrite e; reflexivity|].
    rewrite (h c (or_introl eq_refl)). apply IH. intros b' i. exact (h b' (or_intror i)).
  Qed.
  Lemma declared_spec d bases p t : declared_fun d bases p = Some t <-> Declared d bases p t.
  Proof.
    unfold declared_fun. split.
    - destruct (dget p (d_props d)) as [u|] eqn:e.
      + rewrite (chain_own _ _ _ _ e). intros [= <-]. apply declared_own. exact e.
      + rewrite (chain_rest _ _ _ e). pose proof (find_base p bases) as h. destruct (find _ _) as [m|]; [|discriminate].
        destruct h as (l1 & b & l2 & u & e1 & h1 & -> & h2). intros ht. exact (declared_base d bases p l1 b l2 t e e1 h1 ht).
    - intros [u e|l1 b l2 u e e1 h1 h2].
      + apply chain_own. exact e.
      + rewrite (chain_rest _ _ _ e). rewrite e1. rewrite (find_at p l1 b l2 u h1 h2). exact h2.
  Qed.

  Variables (d : cdef) (pybases extended : list klass).
  Hypothesis own_wf : dwf (d_props d).
  Hypothesis apart : Apart (names_of d (pybases ++ extended)).

  Lemma build_ok : match build d pybases extended with
    | Ok k => exists left_ extras accs,
        k = Klass left_ (Build_Model.chain (update (d_props d) extras) (map k_props (pybases ++ extended)))
              (dedup (concat (map k_defaults (pybases ++ extended)) ++ dkeys extras ++ dkeys (filter (fun pt => has_default (snd pt)) (update (d_props d) extras))))
              (Build_Model.chain (map (fun pt : string * pty => (fst pt, {| ds_type := snd pt; ds_acc := match dget (fst pt) accs with Some f => f | None => fun _ => None end |}))
                                      (update (d_props d) extras)) (map k_descs (pybases ++ extended)))
              (pybases ++ extended) /\
        (forall n, (forall p, In p (names_of d (pybases ++ extended)) -> clean p <> n) -> dget n left_ = dget n (d_attrs d)) /\
        (forall p t, declared_fun d (pybases ++ extended) p = Some t ->
           match gives_fun d p with Some v => accepts (ty_schema t) v = true /\ dget p extras = Some (rebuilt store (is_registered d p) t v) | None => dget p extras = None end) /\
        (forall p, In p (dkeys extras) -> In p (names_of d (pybases ++ extended))) /\ dwf extras /\
        (forall p, In p (names_of d (pybases ++ extended)) -> exists f, dget p accs = Some f /\ forall a, f a = accessor clean (d_attrs d) pybases p a)
    | Err e => e = InvalidValue /\ exists p t v, declared_fun d (pybases ++ extended) p = Some t /\ gives_fun d p = Some v /\ accepts (ty_schema t) v = false
    end.
  Proof.
    unfold build. set (all := Build_Model.chain (d_props d) (map k_props (pybases ++ extended))).
    assert (wf : dwf all) by apply chain_keys_nodup.
    pose proof (collect_spec (is_registered d) (d_schema d) pybases all (d_attrs d) (d_attrs d) wf (proj1 apart) (fun p _ => eq_refl)) as h.
    destruct (collect (is_registered d) (d_schema d) pybases all (d_attrs d)) as [[[left_ extras] accs]|e]; cbn [rbind].
    - destruct h as (h1 & h2 & h3 & h4 & h5). exists left_, extras, accs. split; [reflexivity|]. split; [exact h1|]. split.
      { intros p t e. exact (h2 p t (dget_In _ _ _ e)). }
      split; [exact h3|]. split; [exact h4|]. intros p i. destruct (h5 p i) as (at_ & e1 & e2). exists (accessor clean at_ pybases p). split; [exact e1|].
      intros a. unfold accessor. rewrite e2; [reflexivity|]. intros q iq. exact (proj2 apart q p a iq i).
    - destruct h as (he & p & t & v & i & eg & ea). split; [exact he|]. exists p, t, v. split; [exact (In_dget _ _ _ wf i)|]. split; assumption.
  Qed.

  (** ** The default of every property *)
  Theorem value_becomes_default : forall k, build d pybases extended = Ok k ->
    forall p t, dget p (k_props k) = Some t <->
      (exists t0 v, Declared d (pybases ++ extended) p t0 /\ Takes d p v /\ ty_schema t = ty_schema t0 /\ ty_default t = store (ty_schema t0) v) \/
      (Declared d (pybases ++ extended) p t /\ Keeps d p).
  Proof.
    intros k hk p t. pose proof build_ok as h. rewrite hk in h. destruct h as (left_ & extras & accs & -> & _ & h2 & h3 & h4 & _). cbn [k_props].
    assert (core : dget p (Build_Model.chain (update (d_props d) extras) (map k_props (pybases ++ extended))) =
                   match declared_fun d (pybases ++ extended) p with
                   | Some t0 => Some (match takes_fun d p with Some v => retyped t0 v | None => t0 end)
                   | None => None
                   end).
    { destruct (declared_fun d (pybases ++ extended) p) as [t0|] eqn:ed.
      - specialize (h2 p t0 ed). unfold takes_fun. destruct (gives_fun d p) as [v|].
        + destruct h2 as [_ h2]. unfold rebuilt in h2. destruct (is_registered d p) eqn:er; apply chain_own; rewrite update_get by exact h4; rewrite h2; reflexivity.
        + assert (en : (if is_registered d p then None else @None pyval) = None) by (destruct (is_registered d p); reflexivity). rewrite en.
          unfold declared_fun in ed. destruct (dget p (d_props d)) as [u|] eqn:eo.
          * rewrite (chain_own _ _ _ _ eo) in ed. apply chain_own. rewrite update_get, h2 by exact h4. rewrite eo. exact ed.
          * rewrite (chain_rest _ _ _ eo) in ed. rewrite chain_rest; [exact ed|]. rewrite update_get, h2 by exact h4. exact eo.
      - assert (nx : dget p extras = None).
        { apply dget_None. intros i. apply h3 in i. apply dkeys_dget in i. destruct i as (u & e). unfold declared_fun in ed. rewrite e in ed. discriminate. }
        unfold declared_fun in ed. destruct (dget p (d_props d)) as [u|] eqn:eo; [rewrite (chain_own _ _ _ _ eo) in ed; discriminate|].
        rewrite (chain_rest _ _ _ eo) in ed. rewrite chain_rest; [exact ed|]. rewrite update_get, nx by exact h4. exact eo. }
    rewrite core. split.
    - destruct (declared_fun d (pybases ++ extended) p) as [t0|] eqn:ed; [|discriminate]. apply declared_spec in ed. intros [= <-].
      destruct (takes_fun d p) as [v|] eqn:eg.
      + left. exists t0, v. apply takes_spec in eg. split; [exact ed|]. split; [exact eg|]. split; reflexivity.
      + right. apply keeps_spec in eg. split; assumption.
    - intros [(t0 & v & hd & hg & e1 & e2)|[hd hs]].
      + apply declared_spec in hd. apply takes_spec in hg. rewrite hd, hg. destruct t as [ts td]. cbn [ty_schema ty_default] in *. subst. reflexivity.
      + apply declared_spec in hd. apply keeps_spec in hs. rewrite hd, hs. reflexivity.
  Qed.

  (** ** A class is refused exactly when it gives a value its property does not accept *)
  Theorem wrong_value_refused : forall e, build d pybases extended = Err e <->
    e = InvalidValue /\ exists p t v, Declared d (pybases ++ extended) p t /\ Gives d p v /\ accepts (ty_schema t) v = false.
  Proof.
    intros e. pose proof build_ok as h. split.
    - intros he. rewrite he in h. destruct h as (-> & p & t & v & e1 & e2 & e3). split; [reflexivity|]. exists p, t, v.
      apply declared_spec in e1. apply gives_spec in e2. repeat split; assumption.
    - intros (-> & p & t & v & hd & hg & ha). apply declared_spec in hd. apply gives_spec in hg. destruct (build d pybases extended) as [k|e].
      + destruct h as (left_ & extras & accs & _ & _ & h2 & _). specialize (h2 p t hd). rewrite hg in h2. destruct h2 as [h2 _]. rewrite ha in h2. discriminate.
      + destruct h as [-> _]. reflexivity.
  Qed.

  (** ** The properties counted as having a default *)
  Theorem counted_defaults : forall k, build d pybases extended = Ok k -> forall p,
    In p (k_defaults k) <->
      (exists b, In b (pybases ++ extended) /\ In p (k_defaults b)) \/
      (exists t v, Declared d (pybases ++ extended) p t /\ Gives d p v) \/
      (exists t, dget p (d_props d) = Some t /\ truthy (ty_default t) = true /\ forall v, ~ Gives d p v).
  Proof.
    intros k hk p. pose proof build_ok as h. rewrite hk in h. destruct h as (left_ & extras & accs & -> & _ & h2 & h3 & h4 & _). cbn [k_defaults].
    rewrite dedup_In, !in_app_iff.
    assert (e1 : In p (concat (map k_defaults (pybases ++ extended))) <-> exists b, In b (pybases ++ extended) /\ In p (k_defaults b)).
    { rewrite in_concat. split.
      - intros (l & i & ip). apply in_map_iff in i. destruct i as (b & <- & i). exists b. split; assumption.
      - intros (b & i & ip). exists (k_defaults b). split; [apply in_map; exact i|exact ip]. }
    assert (e2 : In p (dkeys extras) <-> exists t v, Declared d (pybases ++ extended) p t /\ Gives d p v).
    { split.
      - intros i. pose proof (h3 p i) as j. apply dkeys_dget in j. destruct j as (t & ej). specialize (h2 p t ej). destruct (gives_fun d p) as [v|] eqn:eg.
        + exists t, v. split; [apply declared_spec; exact ej|apply gives_spec; exact eg].
        + apply dget_None in h2. destruct (h2 i).
      - intros (t & v & hd & hg). apply declared_spec in hd. apply gives_spec in hg. specialize (h2 p t hd). rewrite hg in h2.
        exact (dget_Some_key _ _ _ (proj2 h2)). }
    assert (wu : dwf (update (d_props d) extras)) by (apply update_wf; exact own_wf).
    assert (e3 : In p (dkeys (filter (fun pt => has_default (snd pt)) (update (d_props d) extras))) <->
                 exists t, dget p (update (d_props d) extras) = Some t /\ truthy (ty_default t) = true).
    { unfold dkeys. rewrite in_map_iff. split.
      - intros ([q t] & <- & i). apply filter_In in i. destruct i as [i ht]. exists t. split; [exact (In_dget _ _ _ wu i)|exact ht].
      - intros (t & e & ht). exists (p, t). split; [reflexivity|]. apply filter_In. split; [exact (dget_In _ _ _ e)|exact ht]. }
    rewrite e1, e2, e3. split.
    - intros [a|[a|a]]; [left; exact a|right; left; exact a|]. destruct a as (t & e & ht). rewrite update_get in e by exact h4.
      destruct (dget p extras) as [u|] eqn:ex.
      + right. left. apply e2. exact (dget_Some_key _ _ _ ex).
      + destruct (declared_fun d (pybases ++ extended) p) as [w|] eqn:ed.
        * specialize (h2 p w ed). destruct (gives_fun d p) as [v|] eqn:eg.
          -- rewrite ex in h2. destruct h2 as [_ h2]. discriminate.
          -- right. right. exists t. split; [exact e|]. split; [exact ht|]. intros v hg. apply gives_spec in hg. rewrite hg in eg. discriminate.
        * unfold declared_fun in ed. rewrite (chain_own _ _ _ _ e) in ed. discriminate.
    - intros [a|[a|(t & e & ht & hs)]]; [left; exact a|right; left; exact a|]. right. right. exists t. split; [|exact ht]. rewrite update_get by exact h4.
      assert (hs' : gives_fun d p = None) by (destruct (gives_fun d p) as [v|] eqn:eg; [apply gives_spec in eg; destruct (hs v eg)|reflexivity]).
      assert (ed : declared_fun d (pybases ++ extended) p = Some t) by (apply chain_own; exact e). specialize (h2 p t ed).
      rewrite hs' in h2. rewrite h2. exact e.
  Qed.

  (** ** Accessors: those of the class for the properties it has its own say on, the inherited ones for the others *)
  Lemma accessor_spec a p r : accessor clean (d_attrs d) pybases p a = r <-> Accessor d pybases p a r.
  Proof.
    unfold accessor. change (prefix a ++ clean p)%string with (acc_name a p). split.
    - intros <-. pose proof (holds_spec (dget (acc_name a p) (d_attrs d))) as h1.
      destruct (holds (dget (acc_name a p) (d_attrs d))) as [f|]; [destruct h1 as [h1 h2]; apply acc_own; assumption|].
      pose proof (holds_spec (first_attr (acc_name a p) pybases)) as h2. pose proof (first_attr_spec (acc_name a p) pybases) as h3.
      destruct (holds (first_attr (acc_name a p) pybases)) as [f|].
      + destruct h2 as [h2 hc]. rewrite h2 in h3. destruct h3 as (l1 & b & l2 & e & h3 & h4). exact (acc_base clean d pybases p a l1 b l2 f h1 e h3 h4 hc).
      + apply acc_none; [exact h1|]. intros l1 b l2 f e hb hf. apply h2. rewrite e. exact (first_attr_at _ _ _ _ _ hb hf).
    - intros [f e c|l1 b l2 f h1 e hb hf c|h1 h2].
      + rewrite (holds_counts _ _ e c). reflexivity.
      + pose proof (holds_spec (dget (acc_name a p) (d_attrs d))) as h3. destruct (holds (dget (acc_name a p) (d_attrs d))) as [g|].
        * destruct h3 as [h3 h4]. destruct (h1 g h3 h4).
        * rewrite e. rewrite (first_attr_at _ l1 b l2 f hb hf). apply holds_counts; [reflexivity|exact c].
      + pose proof (holds_spec (dget (acc_name a p) (d_attrs d))) as h3. destruct (holds (dget (acc_name a p) (d_attrs d))) as [g|].
        * destruct h3 as [h3 h4]. destruct (h1 g h3 h4).
        * pose proof (holds_spec (first_attr (acc_name a p) pybases)) as h4. pose proof (first_attr_spec (acc_name a p) pybases) as h5.
          destruct (holds (first_attr (acc_name a p) pybases)) as [g|]; [|reflexivity]. destruct h4 as [h4 hc]. rewrite h4 in h5.
          destruct h5 as (l1 & b & l2 & e & hb & hf). destruct (h2 l1 b l2 g e hb hf hc).
  Qed.
  Lemma own_spec k : build d pybases extended = Ok k -> forall p, In p (names_of d (pybases ++ extended)) ->
    (Own d p -> exists ds, dget p (k_descs k) = Some ds /\ dget p (k_props k) = Some (ds_type ds) /\ forall a, ds_acc ds a = accessor clean (d_attrs d) pybases p a) /\
    (~ Own d p -> dget p (k_descs k) = match find (fun m => dmem p m) (map k_descs (pybases ++ extended)) with Some m => dget p m | None => None end).
  Proof.
    intros hk p ip. pose proof build_ok as h. rewrite hk in h. destruct h as (left_ & extras & accs & -> & _ & h2 & h3 & h4 & h5). cbn [k_descs k_props].
    destruct (h5 p ip) as (f & ef & hf).
    pose proof (dget_map_snd (fun pt : string * pty => {| ds_type := snd pt; ds_acc := match dget (fst pt) accs with Some f => f | None => fun _ => None end |})
                  (update (d_props d) extras) p) as hm. cbn [fst snd] in hm. rewrite ef in hm.
    split.
    - intros ho. assert (i : In p (dkeys (update (d_props d) extras))).
      { apply update_keys. destruct ho as [i|(v & hg)]; [left; exact i|right]. apply dkeys_dget in ip. destruct ip as (t & e). specialize (h2 p t e).
        apply gives_spec in hg. rewrite hg in h2. exact (dget_Some_key _ _ _ (proj2 h2)). }
      apply dkeys_dget in i. destruct i as (t & e). rewrite e in hm. exists {| ds_type := t; ds_acc := f |}. split; [apply chain_own; exact hm|].
      split; [apply chain_own; exact e|exact hf].
    - intros no. assert (e : dget p (update (d_props d) extras) = None).
      { apply dget_None. intros i. apply update_keys in i. destruct i as [i|i]; [apply no; left; exact i|]. apply dkeys_dget in ip. destruct ip as (t & e). specialize (h2 p t e).
        destruct (gives_fun d p) as [v|] eqn:eg; [apply no; right; exists v; apply gives_spec; exact eg|]. apply dget_None in h2. destruct (h2 i). }
      rewrite e in hm. apply chain_rest. exact hm.
  Qed.
  Theorem own_accessors : forall k, build d pybases extended = Ok k -> forall p t, dget p (k_props k) = Some t -> Own d p ->
    exists ds, dget p (k_descs k) = Some ds /\ ds_type ds = t /\ forall a, Accessor d pybases p a (ds_acc ds a).
  Proof.
    intros k hk p t e ho. assert (ip : In p (names_of d (pybases ++ extended))).
    { apply (value_becomes_default k hk) in e. destruct e as [(t0 & v & hd & _)|[hd _]]; apply declared_spec in hd; exact (dget_Some_key _ _ _ hd). }
    destruct (proj1 (own_spec k hk p ip) ho) as (ds & e1 & e2 & e3). exists ds. split; [exact e1|]. split; [rewrite e in e2; injection e2 as ->; reflexivity|].
    intros a. apply accessor_spec. symmetry. apply e3.
  Qed.
End Build.
Print Assumptions value_becomes_default.
Print Assumptions wrong_value_refused.
Print Assumptions counted_defaults.
Print Assumptions own_accessors.

(** The other properties keep the accessors of the first base that has one, whatever the class defines. *)
Theorem other_accessors_inherited : forall clean accepts store d pybases extended k,
  dwf (d_props d) -> Apart clean (names_of d (pybases ++ extended)) -> build clean accepts store d pybases extended = Ok k ->
  forall p t, dget p (k_props k) = Some t -> ~ Own clean d p ->
  forall ds, dget p (k_descs k) = Some ds <->
    exists l1 b l2, pybases ++ extended = l1 ++ b :: l2 /\ (forall b', In b' l1 -> dget p (k_descs b') = None) /\ dget p (k_descs b) = Some ds.
Proof.
  intros clean accepts store d pybases extended k w ap hk p t e no ds.
  assert (ip : In p (names_of d (pybases ++ extended))).
  { apply (value_becomes_default clean accepts store d pybases extended ap k hk) in e.
    destruct e as [(t0 & v & hd & _)|[hd _]]; apply declared_spec in hd; exact (dget_Some_key _ _ _ hd). }
  rewrite (proj2 (own_spec clean accepts store d pybases extended ap k hk p ip) no).
  generalize (pybases ++ extended) as bases. intros bases. induction bases as [|b bases IH]; cbn [map find].
  - split; [discriminate|]. intros (l1 & b & l2 & eq & _). destruct l1; discriminate.
  - unfold dmem at 1. destruct (dget p (k_descs b)) as [u|] eqn:eb.
    + rewrite eb. split.
      * intros [= <-]. exists [], b, bases. repeat split; [intros b' []|exact eb].
      * intros ([|c l1] & b0 & l2 & eq & h1 & h2); injection eq as <- ->.
        -- rewrite eb in h2. exact h2.
        -- rewrite (h1 b (or_introl eq_refl)) in eb. discriminate.
    + rewrite IH. split.
      * intros (l1 & b0 & l2 & -> & h1 & h2). exists (b :: l1), b0, l2. repeat split; [|exact h2]. intros b' [<-|i]; [exact eb|exact (h1 b' i)].
      * intros ([|c l1] & b0 & l2 & eq & h1 & h2); injection eq as <- eq'.
        -- rewrite eb in h2. discriminate.
        -- exists l1, b0, l2. split; [exact eq'|]. split; [|exact h2]. intros b' i. exact (h1 b' (or_intror i)).
Qed.
Print Assumptions other_accessors_inherited.

(** * Lines of classes *)
Section Line.
  Variable clean : string -> string.
  Variable accepts : nat -> pyval -> bool.
  Variable store : nat -> pyval -> pyval.
  Variable root : klass.
  Definition line_names (ds : list cdef) : list string := dkeys (k_props root) ++ flat_map (fun d => dkeys (d_props d)) ds.

  Lemma names_chain d k p : In p (names_of d [k]) <-> In p (dkeys (d_props d)) \/ In p (dkeys (k_props k)).
  Proof.
    unfold names_of. rewrite <- (dmem_In (V := pty)). unfold dmem. destruct (dget p (d_props d)) as [t|] eqn:e.
    - rewrite (chain_own _ _ _ _ e). split; [intros _; left; exact (dget_Some_key _ _ _ e)|reflexivity].
    - rewrite (chain_rest _ _ _ e). cbn [map find]. unfold dmem. destruct (dget p (k_props k)) as [t|] eqn:e'.
      + rewrite e'. split; [intros _; right; exact (dget_Some_key _ _ _ e')|reflexivity].
      + split; [discriminate|]. apply dget_None in e. apply dget_None in e'. tauto.
  Qed.
  Lemma declared_line d k p t : Declared d ([k] ++ []) p t <-> dget p (d_props d) = Some t \/ (dget p (d_props d) = None /\ dget p (k_props k) = Some t).
  Proof.
    split.
    - intros [u e|l1 b l2 u e eq h1 h2]; [left; exact e|]. right. split; [exact e|]. destruct l1 as [|c [|c' l1]]; try discriminate. injection eq as ->. exact h2.
    - intros [e|[e1 e2]]; [apply declared_own; exact e|]. apply (declared_base d ([k] ++ []) p [] k [] t e1); [reflexivity|intros b' []|exact e2].
  Qed.
  Lemma apart_incl l l' : Apart clean l' -> incl l l' -> Apart clean l.
  Proof. intros [a b] i. split; intros p q; [intros ip iq; apply a; apply i; assumption|intros x ip iq; apply b; apply i; assumption]. Qed.

  Lemma line_incl ds k : build_line clean accepts store root ds = Ok k -> Apart clean (line_names ds) -> (forall d, In d ds -> dwf (d_props d)) ->
    incl (dkeys (k_props k)) (line_names ds).
  Proof.
    revert k. induction ds as [|d ds IH]; intros k hk ap w; cbn [build_line] in hk.
    { injection hk as <-. unfold line_names. cbn [flat_map]. rewrite app_nil_r. intros p i. exact i. }
    destruct (build_line clean accepts store root ds) as [k0|]; [|discriminate]. cbn [rbind] in hk.
    assert (sub : incl (line_names ds) (line_names (d :: ds))).
    { intros p i. unfold line_names in *. cbn [flat_map]. rewrite !in_app_iff in *. tauto. }
    specialize (IH k0 eq_refl (apart_incl _ _ ap sub) (fun d' i => w d' (or_intror i))).
    assert (inc : incl (names_of d [k0]) (line_names (d :: ds))).
    { intros p i. apply names_chain in i. destruct i as [i|i]; [|exact (sub p (IH p i))]. unfold line_names. cbn [flat_map]. rewrite !in_app_iff. tauto. }
    intros p i. apply dkeys_dget in i. destruct i as (t & e).
    apply (value_becomes_default clean accepts store d [k0] [] (apart_incl _ _ ap inc) k hk) in e. apply inc.
    destruct e as [(t0 & v & hd & _)|[hd _]]; apply declared_spec in hd; exact (dget_Some_key _ _ _ hd).
  Qed.

  (** The type of a property, default included, is decided by the most derived class that declares it or gives it a value. *)
  Theorem line_types : forall ds k, build_line clean accepts store root ds = Ok k -> Apart clean (line_names ds) -> (forall d, In d ds -> dwf (d_props d)) ->
    forall p t, dget p (k_props k) = Some t <-> LineType clean store root ds p t.
  Proof.
    induction ds as [|d ds IH]; intros k hk ap w p t; pose proof hk as hk0; cbn [build_line] in hk.
    { injection hk as <-. split; [apply lt_root|]. intros h. inversion h. assumption. }
    destruct (build_line clean accepts store root ds) as [k0|] eqn:e0; [|discriminate]. cbn [rbind] in hk.
    assert (sub : incl (line_names ds) (line_names (d :: ds))).
    { intros q i. unfold line_names in *. cbn [flat_map]. rewrite !in_app_iff in *. tauto. }
    assert (ap0 := apart_incl _ _ ap sub). assert (w0 : forall d', In d' ds -> dwf (d_props d')) by (intros d' i; exact (w d' (or_intror i))).
    specialize (IH k0 eq_refl ap0 w0).
    assert (inc : incl (names_of d [k0]) (line_names (d :: ds))).
    { intros q i. apply names_chain in i. destruct i as [i|i]; [|exact (sub q (line_incl ds k0 e0 ap0 w0 q i))]. unfold line_names. cbn [flat_map]. rewrite !in_app_iff. tauto. }
    rewrite (value_becomes_default clean accepts store d [k0] [] (apart_incl _ _ ap inc) k hk p t). split.
    - intros [(t0 & v & hd & hg & e1 & e2)|[hd hs]]; apply declared_line in hd.
      + assert (et : t = {| ty_schema := ty_schema t0; ty_default := store (ty_schema t0) v |}) by (destruct t as [ts td]; cbn [ty_schema ty_default] in *; subst; reflexivity).
        rewrite et. destruct hd as [e|[e3 e4]]; [apply lt_given with (1 := hg); exact e|]. apply lt_given_base with (1 := hg); [exact e3|]. apply IH. exact e4.
      + destruct hd as [e|[e3 e4]]; [apply lt_declared; assumption|]. apply lt_inherited; [assumption|assumption|]. apply IH. exact e4.
    - intros h. inversion h as [|d1 ds1 q1 t1 hd hs|d1 ds1 q1 t1 v hg hd|d1 ds1 q1 t1 v hg hn hl|d1 ds1 q1 t1 hs hn hl]; subst.
      + right. split; [apply declared_line; left; exact hd|exact hs].
      + left. exists t1, v. split; [apply declared_line; left; exact hd|]. split; [exact hg|]. split; reflexivity.
      + left. exists t1, v. split; [apply declared_line; right; split; [exact hn|apply IH; exact hl]|]. split; [exact hg|]. split; reflexivity.
      + right. split; [apply declared_line; right; split; [exact hn|apply IH; exact hl]|exact hs].
  Qed.

  (** The accessors of a property are looked up from the most derived class that has its own say on it: what the classes below
      define under the accessor's name does not count. *)
  Theorem line_accessors : forall ds k, build_line clean accepts store root ds = Ok k -> Apart clean (line_names ds) -> (forall d, In d ds -> dwf (d_props d)) ->
    (forall p, In p (dkeys (k_props root)) <-> In p (dkeys (k_descs root))) ->
    (forall d a p f, In d ds -> dget (acc_name clean a p) (d_attrs d) = Some f -> Counts f) ->
    (forall a p f, find_attr (acc_name clean a p) root = Some f -> Counts f) ->
    (forall p, In p (dkeys (k_props k)) <-> In p (dkeys (k_descs k))) /\
    (forall p ds', dget p (k_descs k) = Some ds' -> forall a, LineAccess clean root ds p a (ds_acc ds' a)).
  Proof.
    intros ds k hk ap w hr hc hroot.
    enough (all : (forall p, In p (dkeys (k_props k)) <-> In p (dkeys (k_descs k))) /\
      (forall p ds', dget p (k_descs k) = Some ds' -> forall a, LineAccess clean root ds p a (ds_acc ds' a)) /\
      (forall q a, In q (line_names ds) -> LineAttr root ds (acc_name clean a q) (find_attr (acc_name clean a q) k)) /\
      (forall q a f, In q (line_names ds) -> find_attr (acc_name clean a q) k = Some f -> Counts f)) by tauto.
    enough (gen : forall big, Apart clean big -> incl (line_names ds) big ->
      (forall p, In p (dkeys (k_props k)) <-> In p (dkeys (k_descs k))) /\
      (forall p ds', dget p (k_descs k) = Some ds' -> forall a, LineAccess clean root ds p a (ds_acc ds' a)) /\
      (forall q a, In q big -> LineAttr root ds (acc_name clean a q) (find_attr (acc_name clean a q) k)) /\
      (forall q a f, In q big -> find_attr (acc_name clean a q) k = Some f -> Counts f)) by (apply (gen (line_names ds) ap); intros x i; exact i).
    intros big apb incb. clear ap. revert k hk. induction ds as [|d ds IH]; intros k hk; cbn [build_line] in hk.
    { injection hk as <-. split; [exact hr|]. split; [intros p ds' e a; apply lx_root; exact e|]. split; [intros q a _; apply la_root|]. intros q a f _. apply hroot. }
    destruct (build_line clean accepts store root ds) as [k0|] eqn:e0; [|discriminate]. cbn [rbind] in hk.
    assert (sub : incl (line_names ds) (line_names (d :: ds))).
    { intros q i. unfold line_names in *. cbn [flat_map]. rewrite !in_app_iff in *. tauto. }
    assert (w0 : forall d', In d' ds -> dwf (d_props d')) by (intros d' i; exact (w d' (or_intror i))).
    assert (sub0 : incl (line_names ds) big) by (intros x i; exact (incb x (sub x i))).
    destruct (IH w0 (fun d' a p f i => hc d' a p f (or_intror i)) sub0 k0 eq_refl) as (b1 & b2 & b3 & b4). clear IH.
    assert (inc : incl (names_of d [k0]) big).
    { intros q i. apply names_chain in i. destruct i as [i|i].
      - apply incb. unfold line_names. cbn [flat_map]. rewrite !in_app_iff. tauto.
      - exact (sub0 q (line_incl ds k0 e0 (apart_incl _ _ apb sub0) w0 q i)). }
    pose proof (apart_incl _ _ apb inc) as ap. pose proof (own_spec clean accepts store d [k0] [] ap k hk) as hown.
    pose proof (build_ok clean accepts store d [k0] [] ap) as h. pose proof hk as hk'. rewrite hk in h. destruct h as (left_ & extras & accs & ek & h1 & h2 & h3 & h4 & h5).
    assert (fa : forall q a, In q big -> find_attr (acc_name clean a q) k = match dget (acc_name clean a q) (d_attrs d) with Some f => Some f | None => find_attr (acc_name clean a q) k0 end).
    { intros q a iq. rewrite ek, find_attr_eq. rewrite h1 by (intros p ip; exact (proj2 apb p q a (inc p ip) iq)).
      destruct (dget (acc_name clean a q) (d_attrs d)); [reflexivity|]. cbn [app first_attr]. destruct (find_attr (acc_name clean a q) k0); reflexivity. }
    assert (props_iff : forall p, In p (dkeys (k_props k)) <-> In p (names_of d [k0])).
    { intros p. split; intros i; apply dkeys_dget in i; destruct i as (t & e).
      - apply (value_becomes_default clean accepts store d [k0] [] ap k hk') in e.
        destruct e as [(t0 & v & hd & _)|[hd _]]; apply declared_spec in hd; exact (dget_Some_key _ _ _ hd).
      - assert (hd : Declared d ([k0] ++ []) p t) by (apply declared_spec; exact e). destruct (takes_fun clean d p) as [v|] eqn:eg.
        + apply takes_spec in eg. apply (dget_Some_key p (k_props k) {| ty_schema := ty_schema t; ty_default := store (ty_schema t) v |}).
          apply (value_becomes_default clean accepts store d [k0] [] ap k hk'). left. exists t, v. split; [exact hd|]. split; [exact eg|]. split; reflexivity.
        + apply keeps_spec in eg. apply (dget_Some_key p (k_props k) t). apply (value_becomes_default clean accepts store d [k0] [] ap k hk'). right. split; assumption. }
    assert (dec : forall p, Own clean d p \/ ~ Own clean d p).
    { intros p. destruct (in_dec eq_dec p (dkeys (d_props d))) as [i|n]; [left; left; exact i|]. destruct (gives_fun clean d p) as [v|] eqn:eg.
      - left. right. exists v. apply gives_spec. exact eg.
      - right. intros [i|(v & hg)]; [exact (n i)|]. apply gives_spec in hg. rewrite hg in eg. discriminate. }
    assert (notown : forall p, In p (names_of d [k0]) -> ~ Own clean d p -> dget p (k_descs k) = dget p (k_descs k0)).
    { intros p i no. rewrite (proj2 (hown p i) no). cbn [app map find]. unfold dmem. destruct (dget p (k_descs k0)) eqn:e; [exact e|reflexivity]. }
    assert (descs_in : forall p x, dget p (k_descs k) = Some x -> In p (names_of d [k0])).
    { intros p x e. rewrite ek in e. cbn [k_descs] in e. rewrite Build_Props.chain_get in e. cbn [find] in e. unfold dmem at 1 in e.
      match type of e with match (if match dget p ?m with _ => _ end then _ else _) with _ => _ end = _ => set (om := m) in * end.
      destruct (dget p om) as [y|] eqn:eo.
      - unfold om in eo. pose proof (dget_map_snd (fun pt : string * pty => {| ds_type := snd pt; ds_acc := match dget (fst pt) accs with Some f => f | None => fun _ => None end |})
                                       (update (d_props d) extras) p) as hm. cbn [fst snd] in hm. rewrite hm in eo. destruct (dget p (update (d_props d) extras)) as [t|] eqn:eu; [|discriminate].
        apply dget_Some_key in eu. apply update_keys in eu. destruct eu as [i|i]; [apply names_chain; left; exact i|exact (h3 p i)].
      - cbn [app map find] in e. unfold dmem in e. destruct (dget p (k_descs k0)) as [y|] eqn:e1; [|discriminate]. apply names_chain. right. apply b1. exact (dget_Some_key _ _ _ e1). }
    split; [|split; [|split]].
    - intros p. split; intros i.
      + apply props_iff in i. destruct (dec p) as [o|no].
        * destruct (proj1 (hown p i) o) as (ds' & e & _). exact (dget_Some_key _ _ _ e).
        * apply dmem_In. unfold dmem. rewrite (notown p i no). fold (dmem p (k_descs k0)). apply dmem_In. apply b1.
          apply names_chain in i. destruct i as [i|i]; [destruct (no (or_introl i))|exact i].
      + apply props_iff. apply dkeys_dget in i. destruct i as (x & e). exact (descs_in p x e).
    - intros p ds' e a. pose proof (descs_in p ds' e) as ip.
      destruct (dec p) as [o|no].
      + destruct (proj1 (hown p ip) o) as (ds2 & e1 & _ & e3). rewrite e in e1. injection e1 as <-. apply lx_own; [exact o|]. rewrite e3. unfold accessor. change (prefix a ++ clean p)%string with (acc_name clean a p).
        destruct (dget (acc_name clean a p) (d_attrs d)) as [f|] eqn:ea.
        * rewrite (holds_counts (Some f) f eq_refl (hc d a p f (or_introl eq_refl) ea)). apply la_own. exact ea.
        * cbn [holds]. apply la_base; [exact ea|]. cbn [first_attr]. pose proof (b3 p a (inc p ip)) as ha. destruct (find_attr (acc_name clean a p) k0) as [f|] eqn:ef; [|exact ha].
          rewrite (holds_counts (Some f) f eq_refl (b4 p a f (inc p ip) ef)). exact ha.
      + rewrite (notown p ip no) in e. apply lx_base; [exact no|]. exact (b2 p ds' e a).
    - intros q a iq. rewrite (fa q a iq). destruct (dget (acc_name clean a q) (d_attrs d)) as [f|] eqn:ea; [apply la_own; exact ea|]. apply la_base; [exact ea|exact (b3 q a iq)].
    - intros q a f iq e. rewrite (fa q a iq) in e. destruct (dget (acc_name clean a q) (d_attrs d)) as [g|] eqn:ea; [injection e as <-; exact (hc d a q g (or_introl eq_refl) ea)|exact (b4 q a f iq e)].
  Qed.
End Line.
Print Assumptions line_types.
Print Assumptions line_accessors.

(** * Refuted *)
(** a class that defines get_x for an inherited property makes its objects use it *)
Theorem overridden_accessor_refuted : forall clean accepts store d b k p a f,
  dwf (d_props d) -> Apart clean (names_of d [b]) -> build clean accepts store d [b] [] = Ok k ->
  In p (dkeys (k_props b)) -> ~ Own clean d p -> dget (acc_name clean a p) (d_attrs d) = Some (ASym f) ->
  dget p (k_descs k) = dget p (k_descs b).
Proof.
  intros clean accepts store d b k p a f w ap hk i no _.
  rewrite (proj2 (own_spec clean accepts store d [b] [] ap k hk p (proj2 (names_chain clean d b p) (or_intror i))) no). cbn [app map find].
  unfold dmem. destruct (dget p (k_descs b)) eqn:e; [exact e|reflexivity].
Qed.
Print Assumptions overridden_accessor_refuted.
(** a class declaring again a property of a class it extends keeps the accessors of that class: they are only looked for in
    the bases of the class statement *)
Theorem extended_accessor_refuted : forall clean accepts store d pybases b k p t a f,
  dwf (d_props d) -> Apart clean (names_of d (pybases ++ [b])) -> build clean accepts store d pybases [b] = Ok k ->
  dget p (d_props d) = Some t -> find_attr (acc_name clean a p) b = Some f -> dget (acc_name clean a p) (d_attrs d) = None ->
  (forall c, In c pybases -> find_attr (acc_name clean a p) c = None) ->
  exists ds, dget p (k_descs k) = Some ds /\ ds_acc ds a = None.
Proof.
  intros clean accepts store d pybases b k p t a f w ap hk e hf ha hp.
  assert (ip : In p (names_of d (pybases ++ [b]))) by (apply (dget_Some_key p _ t); apply chain_own; exact e).
  destruct (proj1 (own_spec clean accepts store d pybases [b] ap k hk p ip) (or_introl (dget_Some_key _ _ _ e))) as (ds & e1 & _ & e3).
  exists ds. split; [exact e1|]. rewrite e3. unfold accessor. change (prefix a ++ clean p)%string with (acc_name clean a p). rewrite ha. cbn [holds].
  pose proof (first_attr_spec (acc_name clean a p) pybases) as h. destruct (first_attr (acc_name clean a p) pybases) as [g|]; [|reflexivity].
  destruct h as (l1 & c & l2 & -> & _ & h). rewrite (hp c (in_elt c l1 l2)) in h. discriminate.
Qed.
Print Assumptions extended_accessor_refuted.
(** an inherited property without default, given no value by the class body, has none: the text describing the class becomes the default of a
    property named description *)
Theorem keyword_becomes_default_refuted : forall clean accepts store d pybases extended k p t v,
  dwf (d_props d) -> Apart clean (names_of d (pybases ++ extended)) -> build clean accepts store d pybases extended = Ok k ->
  Declared d (pybases ++ extended) p t -> dget p (d_props d) = None -> dget (clean p) (d_attrs d) = None -> ~ In p def_keys -> dget p (d_schema d) = Some v -> v <> VNone ->
  dget p (k_props k) = Some {| ty_schema := ty_schema t; ty_default := store (ty_schema t) v |}.
Proof.
  intros clean accepts store d pybases extended k p t v w ap hk hd ho ha hn hs hv.
  apply (value_becomes_default clean accepts store d pybases extended ap k hk). left. exists t, v. split; [exact hd|].
  split; [|split; reflexivity]. split; [|intros i; apply dget_None in ho; destruct (ho i)]. apply gives_schema; [|exact hn|exact hs|exact hv]. intros x e. rewrite ha in e. discriminate.
Qed.
Print Assumptions keyword_becomes_default_refuted.

(** a value given in the body to a property declared by the same class is its default: the type is the one declared, although the
    property counts as having a default *)
Theorem own_value_lost_refuted : forall clean accepts store d pybases extended k p t v,
  dwf (d_props d) -> Apart clean (names_of d (pybases ++ extended)) -> build clean accepts store d pybases extended = Ok k ->
  dget p (d_props d) = Some t -> ~ In p (d_open d) -> Gives clean d p v ->
  dget p (k_props k) = Some t /\ In p (k_defaults k).
Proof.
  intros clean accepts store d pybases extended k p t v w ap hk e no hg. split.
  - apply (value_becomes_default clean accepts store d pybases extended ap k hk). right. split; [apply declared_own; exact e|].
    intros x [_ h]. apply no, h. exact (dget_Some_key _ _ _ e).
  - apply (counted_defaults clean accepts store d pybases extended w ap k hk). right. left. exists t, v. split; [apply declared_own; exact e|exact hg].
Qed.
Print Assumptions own_value_lost_refuted.

(** * Examples: the file models of ngoschema/models/files.py *)
Definition ex_ty (n : nat) : pty := {| ty_schema := n; ty_default := VNone |}.
Definition ex_root : klass := Klass [("set_context", ASym 0)] [] [] [] [].
(** File, UriFile and Document define get_contentRaw; Document does not declare contentRaw *)
Definition ex_file : cdef := {| d_attrs := [("get_contentRaw", ASym 1); ("binary", AVal (VBool false))]; d_schema := [("type", VStr "object")];
  d_props := [("filepath", ex_ty 1); ("binary", ex_ty 2); ("contentRaw", ex_ty 3)]; d_open := ["contentRaw"] |}.
Definition ex_urifile : cdef := {| d_attrs := [("get_contentRaw", ASym 2); ("binary", AVal (VBool true))]; d_schema := [];
  d_props := [("uri", ex_ty 4); ("contentRaw", ex_ty 3)]; d_open := ["contentRaw"] |}.
Definition ex_document : cdef := {| d_attrs := [("get_contentRaw", ASym 3); ("get_content", ASym 4)]; d_schema := [("version", VStr "1")];
  d_props := [("content", ex_ty 3); ("version", ex_ty 5)]; d_open := ["content"] |}.
Definition ex_line : list cdef := [ex_document; ex_urifile; ex_file].
Definition ex_accepts (n : nat) (v : pyval) : bool := match v with VBool _ => Nat.eqb n 2 | VStr _ => Nat.eqb n 5 | _ => false end.
Definition ex_build := build_line (fun n => n) ex_accepts (fun _ v => v) ex_root ex_line.
Example ex_built : exists k, ex_build = Ok k /\ dget "binary" (k_props k) = Some {| ty_schema := 2; ty_default := VBool true |} /\
  dget "version" (k_props k) = Some {| ty_schema := 5; ty_default := VNone |} /\ k_defaults k = ["binary"; "version"] /\
  (exists ds, dget "contentRaw" (k_descs k) = Some ds /\ ds_acc ds Get = Some (ASym 2)) /\
  find_attr "get_contentRaw" k = Some (ASym 3).
Proof. eexists. split; [vm_compute; reflexivity|]. repeat split. eexists. split; reflexivity. Qed.
Example ex_apart : Apart (fun n => n) (line_names ex_root ex_line).
Proof.
  split; [intros p q _ _ e; exact e|]. intros p q a ip iq e.
  assert (forallb (fun q => forallb (fun a => negb (mem (prefix a ++ q)%string (line_names ex_root ex_line))) [Get; Set_; Del]) (line_names ex_root ex_line) = true) as h by reflexivity.
  rewrite forallb_forall in h. specialize (h q iq). rewrite forallb_forall in h. specialize (h a). change (p = (prefix a ++ q)%string) in e. rewrite <- e in h.
  rewrite (proj2 (mem_In _ p (line_names ex_root ex_line)) ip) in h. assert (In a [Get; Set_; Del]) as ia by (destruct a; cbn; tauto). discriminate (h ia).
Qed.
Example ex_wf : (forall d, In d ex_line -> dwf (d_props d)) /\ (forall d a p f, In d ex_line -> dget (acc_name (fun n => n) a p) (d_attrs d) = Some f -> Counts f).
Proof.
  split.
  - intros d [<-|[<-|[<-|[]]]]; unfold dwf; cbn; repeat constructor; cbn; intuition discriminate.
  - intros d a p f i e. apply dget_In in e. destruct i as [<-|[<-|[<-|[]]]].
    + destruct e as [e|[e|[]]]; injection e as _ <-; exact I.
    + destruct e as [e|[e|[]]]; [injection e as _ <-; exact I|]. destruct a; discriminate e.
    + destruct e as [e|[e|[]]]; [injection e as _ <-; exact I|]. destruct a; discriminate e.
Qed.
Example ex_wrong : build (fun n => n) ex_accepts (fun _ v => v) {| d_attrs := [("binary", AVal (VStr "yes"))]; d_schema := []; d_props := d_props ex_file; d_open := [] |} [ex_root] [] = Err InvalidValue.
Proof. reflexivity. Qed.
(** a setter of the protocol itself serves a property named context *)
Example ex_context : exists k ds, build (fun n => n) ex_accepts (fun _ v => v) {| d_attrs := []; d_schema := []; d_props := [("context", ex_ty 1)]; d_open := [] |} [ex_root] [] = Ok k /\
  dget "context" (k_descs k) = Some ds /\ ds_acc ds Set_ = Some (ASym 0) /\ ds_acc ds Get = None.
Proof. eexists _, _. split; [reflexivity|]. repeat split. Qed.
