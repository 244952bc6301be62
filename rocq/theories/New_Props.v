(** Properties of new objects (C74). *)
From Verif Require Import Object_Model Object_Spec Object_Props Order_Spec Order_Props Alias_Model Alias_Spec Alias_Proofs Alias_Props New_Model New_Spec.
From Coq Require Import Permutation.

Lemma dget_app2 {V} k (a b : dict string V) : dget k (a ++ b) = match dget k a with Some v => Some v | None => dget k b end.
Proof. induction a as [|[k' v] a IH]; cbn [app dget]; [reflexivity|]. destruct (eq_dec k k'); [reflexivity|exact IH]. Qed.
Lemma dkeys_app2 {V} (a b : dict string V) : dkeys (a ++ b) = dkeys a ++ dkeys b.
Proof. apply map_app. Qed.
Lemma dkeys_iff {V} k (l : dict string V) : In k (dkeys l) <-> exists v, dget k l = Some v.
Proof. split; [apply dkeys_dget|]. intros (v & e). exact (dget_Some_key k l v e). Qed.
Lemma dmem_some {V} k (l : dict string V) : dmem k l = true <-> exists v, dget k l = Some v.
Proof. rewrite dmem_In, dkeys_iff. reflexivity. Qed.
Lemma dmem_none {V} k (l : dict string V) : dmem k l = false <-> dget k l = None.
Proof. rewrite dmem_false, dget_None. reflexivity. Qed.

Lemma order_ok required keys deps l : dwf deps -> NoDup required -> call_order required keys deps = (l, Ok tt) ->
  NoDup l /\ (forall x, In x l <-> In x required \/ In x keys) /\ exists rest, l = required ++ rest.
Proof.
  intros wf nd e. assert (q := e). unfold call_order in e.
  destruct (filter (fun k => negb (mem k required)) (dedup keys)) as [|u un] eqn:eu.
  - injection e as <-. split; [exact nd|]. split; [|exists []; symmetry; apply app_nil_r].
    intros x. split; [tauto|]. intros [h|h]; [exact h|]. destruct (mem_spec EqDec_string x required) as [i|n]; [exact i|].
    assert (i : In x (filter (fun k => negb (mem k required)) (dedup keys))).
    { apply filter_In. split; [apply dedup_In; exact h|]. apply negb_true_iff, mem_not_In. exact n. }
    rewrite eu in i. destruct i.
  - destruct (snd (topological_sort deps)) as [[]|x] eqn:et; [|discriminate].
    assert (ac := proj1 (proj1 (topological_sort_detects_cycles _ _ deps wf)) et).
    destruct (call_order_complete required keys deps wf nd ac) as (l' & e' & h). rewrite q in e'. injection e' as <-. exact h.
Qed.
Lemma picked_ok m : forall ks r, picked m ks = Ok r -> dkeys r = ks /\ forall p, dget p r = if mem p ks then dget p m else None.
Proof.
  induction ks as [|k ks IH]; intros r h; cbn [picked] in h; [injection h as <-; split; reflexivity|].
  destruct (dget k m) as [v|] eqn:ev; [|discriminate]. destruct (picked m ks) as [r'|] eqn:er; [|discriminate]. injection h as <-.
  destruct (IH r' eq_refl) as (h1 & h2). split; [unfold dkeys in *; cbn [map fst]; f_equal; exact h1|].
  intros p. cbn [dget mem]. rewrite h2. destruct (eq_dec p k) as [->|n]; [symmetry; exact ev|reflexivity].
Qed.
Lemma picked_all m : forall ks, (forall k, In k ks -> In k (dkeys m)) -> exists r, picked m ks = Ok r.
Proof.
  induction ks as [|k ks IH]; intros h; [exists []; reflexivity|]. cbn [picked].
  destruct (proj1 (dkeys_iff _ _) (h k (or_introl eq_refl))) as (v & ->). destruct IH as (r & ->); [intros x i; apply h; right; exact i|].
  eexists. reflexivity.
Qed.
Lemma picked_err m x : forall ks, picked m ks = Err x -> x = KeyError /\ exists k, In k ks /\ ~ In k (dkeys m).
Proof.
  induction ks as [|k ks IH]; intros h; [discriminate|]. cbn [picked] in h. destruct (dget k m) as [v|] eqn:e.
  - destruct (picked m ks) as [r|y] eqn:er; [discriminate|]. cbn in h. injection h as <-. destruct (IH eq_refl) as (-> & k' & i & n).
    split; [reflexivity|]. exists k'. split; [right; exact i|exact n].
  - injection h as <-. split; [reflexivity|]. exists k. split; [left; reflexivity|apply dget_None; exact e].
Qed.
Lemma dget_nulls props l k : dget k (nulls props l) = if mem k props && negb (dmem k l) then Some VNone else None.
Proof.
  unfold nulls. induction props as [|q props IH]; [reflexivity|]. cbn [filter mem]. destruct (negb (dmem q l)) eqn:e.
  - cbn [map dget]. destruct (eq_dec k q) as [->|n]; [rewrite e; reflexivity|]. exact IH.
  - rewrite IH. destruct (eq_dec k q) as [->|n]; [|reflexivity]. rewrite e, !andb_false_r. reflexivity.
Qed.
Lemma defaults_ok ds l : forall d, dwf ds -> defaults ds l = Ok d -> (forall k, dget k d =
    if dmem k l then None else match dget k ds with Some (Ok v) => Some v | _ => None end) /\ dwf d /\
    (forall k, In k (dkeys ds) -> dmem k l = false -> exists v, dget k ds = Some (Ok v)).
Proof.
  induction ds as [|[k0 r0] ds IH]; intros d wf h; cbn [defaults] in h.
  - injection h as <-. split; [intros k; cbn; destruct (dmem k l); reflexivity|]. split; [apply dwf_nil|intros k []].
  - unfold dwf, dkeys in wf. cbn [map fst] in wf. inversion wf as [|? ? ni wf']; subst. destruct (dmem k0 l) eqn:e0.
    + destruct (IH d wf' h) as (h1 & h2 & h3). split; [|split; [exact h2|]].
      * intros k. rewrite h1. cbn [dget]. destruct (dmem k l) eqn:e; [reflexivity|]. destruct (eq_dec k k0) as [->|n]; [congruence|reflexivity].
      * intros k [<-|i] e; [cbn [fst] in e; congruence|]. destruct (h3 k i e) as (v & ev). exists v. cbn [dget]. destruct (eq_dec k k0) as [->|n]; [congruence|exact ev].
    + destruct r0 as [v0|]; [|discriminate]. cbn [rbind] in h. destruct (defaults ds l) as [d'|] eqn:ed; [|discriminate]. injection h as <-.
      destruct (IH d' wf' eq_refl) as (h1 & h2 & h3). split; [|split].
      * intros k. cbn [dget]. destruct (eq_dec k k0) as [->|n]; [rewrite e0; reflexivity|apply h1].
      * unfold dwf, dkeys. cbn [map fst]. constructor; [|exact h2]. intros i. fold (dkeys d') in i. apply dkeys_iff in i. destruct i as (v & i).
        rewrite h1, e0 in i. destruct (dget k0 ds) eqn:eq; [|discriminate]. apply dget_Some_key in eq. contradiction.
      * intros k [<-|i] e; cbn [dget fst]; [destruct (eq_dec k0 k0); [eauto|contradiction]|]. destruct (h3 k i e) as (v & ev).
        destruct (eq_dec k k0) as [->|n]; [eauto|eauto].
Qed.
Lemma defaults_err ds l x : defaults ds l = Err x -> exists k, In (k, Err x) ds /\ ~ In k (dkeys l).
Proof.
  induction ds as [|[k0 r0] ds IH]; intros h; cbn [defaults] in h; [discriminate|]. destruct (dmem k0 l) eqn:e0.
  - destruct (IH h) as (k & i & n). exists k. split; [right; exact i|exact n].
  - destruct r0 as [v0|y]; cbn [rbind] in h.
    + destruct (defaults ds l); [discriminate|]. destruct (IH h) as (k & i & n). exists k. split; [right; exact i|exact n].
    + injection h as ->. exists k0. split; [left; reflexivity|apply dmem_false; exact e0].
Qed.

(** the items after filling *)
Definition filled (c : ncls) (l : dict string pyval) (p : string) : option pyval :=
  match dget p l with
  | Some v => Some v
  | None => match dget p (nc_defaults c) with
            | Some (Ok v) => Some v
            | Some (Err _) => None
            | None => if mem p (nm_props (nc_names c)) then Some VNone else None
            end
  end.
Lemma fill_m c l d : Proper c -> defaults (nc_defaults c) l = Ok d ->
  forall p, dget p ((l ++ d) ++ nulls (nm_props (nc_names c)) (l ++ d)) = filled c l p.
Proof.
  intros P hd p. destruct (defaults_ok _ _ _ (pr_defaults c P) hd) as (h1 & _ & h3). rewrite dget_app2, dget_app2, dget_nulls. unfold filled.
  destruct (dget p l) as [v|] eqn:el; [reflexivity|]. assert (em : dmem p l = false) by (apply dmem_none; exact el).
  specialize (h1 p). rewrite em in h1. rewrite h1. destruct (dget p (nc_defaults c)) as [[v|x]|] eqn:ed.
  - reflexivity.
  - destruct (h3 p (dget_Some_key _ _ _ ed) em) as (v & q). congruence.
  - replace (dmem p (l ++ d)) with false; [cbn [negb]; rewrite andb_true_r; reflexivity|].
    symmetry. apply dmem_none. rewrite dget_app2, el. exact h1.
Qed.
Lemma order_snd required keys deps : snd (call_order required keys deps) = Ok tt <->
  snd (topological_sort deps) = Ok tt \/ forall k, In k keys -> In k required.
Proof.
  unfold call_order. destruct (filter (fun k => negb (mem k required)) (dedup keys)) as [|u un] eqn:eu.
  - cbn [snd]. split; [intros _; right|reflexivity]. intros k i. destruct (mem_spec EqDec_string k required) as [j|n]; [exact j|].
    assert (q : In k (filter (fun k => negb (mem k required)) (dedup keys))).
    { apply filter_In. split; [apply dedup_In; exact i|]. apply negb_true_iff, mem_not_In. exact n. }
    rewrite eu in q. destruct q.
  - assert (q : In u (filter (fun k => negb (mem k required)) (dedup keys))) by (rewrite eu; left; reflexivity).
    apply filter_In in q. destruct q as (iu & nu). apply dedup_In in iu. apply negb_true_iff, mem_not_In in nu.
    destruct (snd (topological_sort deps)) as [[]|x] eqn:et; cbn [snd]; [tauto|]. split; [discriminate|]. intros [q|q]; [discriminate|].
    destruct (nu (q u iu)).
Qed.
Lemma fill_ok c l r : Proper c -> fill c l = Ok r ->
  NoDup (dkeys r) /\ (forall p, dget p r = filled c l p) /\ (forall x y, In x (dkeys r) -> In y (dkeys r) -> Dep (nc_deps c) x y -> Before y x (dkeys r)) /\
  (forall k, In k (dkeys (nc_defaults c)) -> ~ In k (dkeys l) -> exists v, dget k (nc_defaults c) = Some (Ok v)).
Proof.
  intros P h. unfold fill in h. destruct (defaults (nc_defaults c) l) as [d|] eqn:ed; [|discriminate]. cbn [rbind] in h. cbn zeta in h.
  assert (fm := fill_m c l d P ed). set (m := (l ++ d) ++ nulls (nm_props (nc_names c)) (l ++ d)) in *.
  destruct (call_order [] (dkeys m) (nc_deps c)) as [ks e] eqn:eo. cbn [fst snd] in h.
  destruct (picked m ks) as [r'|] eqn:ep; [|discriminate]. cbn [rbind] in h. destruct e as [[]|]; [|discriminate]. injection h as <-.
  destruct (order_ok _ _ _ _ (pr_deps c P) (NoDup_nil _) eo) as (nd & hin & _). destruct (picked_ok _ _ _ ep) as (ek & eg).
  split; [rewrite ek; exact nd|]. split; [|split].
  2:{ rewrite ek. intros x y ix iy dp. assert (ac : ~ exists z, Cyclic (nc_deps c) z).
      { apply (proj1 (topological_sort_detects_cycles _ _ _ (pr_deps c P))). assert (q : snd (call_order [] (dkeys m) (nc_deps c)) = Ok tt) by (rewrite eo; reflexivity).
        apply order_snd in q. destruct q as [q|q]; [exact q|]. apply hin in ix. destruct ix as [[]|ix]. destruct (q x ix). }
      apply hin in ix. apply hin in iy. destruct ix as [[]|ix], iy as [[]|iy].
      pose proof (call_order_dependencies [] (dkeys m) (nc_deps c) x y (pr_deps c P) ac ix iy (fun h => h) (fun h => h) dp) as q. rewrite eo in q. exact q. }
  - intros p. rewrite eg, <- fm. destruct (mem p ks) eqn:em; [reflexivity|]. apply mem_not_In in em. symmetry. apply dget_None.
    intros i. apply em. apply hin. right. exact i.
  - intros k i n. apply dmem_false in n. exact (proj2 (proj2 (defaults_ok _ _ _ (pr_defaults c P) ed)) k i n).
Qed.
Lemma order_fst required keys deps x : In x (fst (call_order required keys deps)) -> In x required \/ In x keys.
Proof.
  unfold call_order. destruct (filter (fun k => negb (mem k required)) (dedup keys)) as [|u un] eqn:eu; cbn [fst]; [tauto|].
  assert (U : forall y, In y (u :: un) -> In y keys).
  { intros y i. rewrite <- eu in i. apply filter_In in i. apply dedup_In with (E := EqDec_string). apply i. }
  destruct (snd (topological_sort deps)); cbn [fst]; rewrite !in_app_iff, in_flat_map.
  - intros [h|[(l & _ & h)|h]]; [tauto| |]; right; apply U; apply filter_In in h; [apply (mem_In EqDec_string)|]; apply h.
  - intros [h|(l & _ & h)]; [tauto|]. right. apply U. apply filter_In in h. apply (mem_In EqDec_string). apply h.
Qed.
Lemma order_fst_required required keys deps x : In x required -> In x (fst (call_order required keys deps)).
Proof.
  intros i. unfold call_order. destruct (filter (fun k => negb (mem k required)) (dedup keys)) as [|u un]; cbn [fst]; [exact i|].
  destruct (snd (topological_sort deps)); cbn [fst]; apply in_or_app; left; exact i.
Qed.

(** giving something gives something *)
Lemma dset_nonempty {V} (k : string) (v : V) d : dset k v d <> [].
Proof. destruct d as [|[k' v'] d]; cbn; [discriminate|]. destruct (eq_dec k k'); discriminate. Qed.
Lemma translate_nonempty n os : forall d, d <> [] -> translate n os d <> [].
Proof.
  unfold translate. induction os as [|o os IH]; intros d h; [exact h|]. cbn [fold_left]. apply IH. unfold translate1.
  destruct (dget o d), (dget o (nm_trans n)); try exact h. apply dset_nonempty.
Qed.
Lemma pop_nonempty f t : forall v a v' a', v <> [] \/ a <> [] -> pop_aliases f t v a = Ok (v', a') -> v' <> [] \/ a' <> [].
Proof.
  induction t as [|[k1 k2] t IH]; intros v a v' a' h e; cbn [pop_aliases] in e; [injection e as <- <-; exact h|].
  destruct (dget k1 v) as [x|]; [|exact (IH _ _ _ _ h e)]. destruct (f x) as [w|]; [|discriminate]. cbn [rbind] in e.
  apply (IH _ _ _ _ (or_intror (dset_nonempty k2 w a)) e).
Qed.
Lemma dupdate_nonempty upd : forall d, d <> [] \/ upd <> [] -> dupdate d upd <> [].
Proof.
  unfold dupdate. induction upd as [|[k v] upd IH]; intros d h; cbn [fold_left]; [destruct h as [h|h]; [exact h|contradiction]|].
  apply IH. left. apply dset_nonempty.
Qed.
Lemma rename_nonempty f t v r : v <> [] -> rename_aliases f t v = Ok r -> r <> [].
Proof.
  intros h e. unfold rename_aliases in e. destruct (pop_aliases f t v []) as [[v' a']|] eqn:ep; [|discriminate]. cbn in e. injection e as <-.
  apply dupdate_nonempty. exact (pop_nonempty _ _ _ _ _ _ (or_introl h) ep).
Qed.
Lemma alias_nonempty n os d r : d <> [] -> alias_deserialize n os d = Ok r -> r <> [].
Proof.
  intros h e. unfold alias_deserialize in e. destruct (rename_aliases Ok (nm_alias n) (translate n os d)) as [v2|] eqn:e2; [|discriminate].
  cbn [rbind] in e. eapply rename_nonempty; [|exact e]. eapply rename_nonempty; [|exact e2]. apply translate_nonempty. exact h.
Qed.
Lemma pop_nil f t : pop_aliases f t [] [] = Ok ([], []).
Proof. induction t as [|[k1 k2] t IH]; [reflexivity|]. cbn [pop_aliases dget]. exact IH. Qed.
Lemma alias_nil n os : alias_deserialize n os [] = Ok [].
Proof.
  assert (t : translate n os [] = []) by (unfold translate; induction os as [|o os IH]; [reflexivity|exact IH]).
  unfold alias_deserialize, rename_aliases. rewrite t, pop_nil. cbn. rewrite pop_nil. reflexivity.
Qed.

(** the items of an object *)
Definition items (shared : dict string pyval) (x : data) : dict string pyval := match x with Own r => r | Shared => shared end.

Section New.
  Variable c : ncls.
  Hypothesis P : Proper c.
  Notation nn := (nc_names c).

  Lemma new_anatomy order shared d x : (d <> [] \/ shared = []) -> new_data c order shared d = Ok x ->
    exists v, alias_deserialize nn order d = Ok v /\ fill c v = Ok (items shared x).
  Proof.
    intros hd h. unfold new_data in h. destruct (alias_deserialize nn order d) as [v|] eqn:ea; [|discriminate]. cbn [rbind] in h.
    exists v. split; [reflexivity|].
    assert (h' : rbind (fill c v) (fun r => match r with [] => Ok Shared | _ => Ok (Own r) end) = Ok x).
    { destruct v as [|p v]; [|exact h]. destruct hd as [hd|hd]; [destruct (alias_nonempty _ _ _ _ hd ea eq_refl)|]. rewrite hd in h. exact h. }
    clear h. rename h' into h. destruct (fill c v) as [r|] eqn:ef; [|discriminate]. cbn [rbind] in h. destruct r as [|p r]; injection h as <-; cbn [items]; [|reflexivity].
    f_equal. destruct hd as [hd|hd]; [|symmetry; exact hd].
    assert (nv := alias_nonempty _ _ _ _ hd ea). destruct (fill_ok c v [] P ef) as (_ & g & _). destruct v as [|[k y] v]; [contradiction|].
    specialize (g k). unfold filled in g. cbn [dget] in g. destruct (eq_dec k k); [discriminate|contradiction].
  Qed.

  (** Every item of a new object comes from what is given, or is the default, or is null; what is given and what is declared is
      there; a property comes after those it depends on, required or not *)
  Theorem new_members : forall order shared d x, dwf d -> Permutation order (to_translate nn d) -> d <> [] \/ shared = [] ->
    new_data c order shared d = Ok x ->
    NoDup (dkeys (items shared x)) /\ (forall a b, In a (dkeys (items shared x)) -> In b (dkeys (items shared x)) -> Dep (nc_deps c) a b -> Before b a (dkeys (items shared x))) /\
    forall p o, Member c d p o <-> dget p (items shared x) = o.
  Proof.
    intros order shared d x wf perm hd h. destruct (new_anatomy order shared d x hd h) as (v & ea & ef).
    destruct (fill_ok c v _ P ef) as (h1 & h2 & h3 & h4). split; [exact h1|]. split; [exact h3|].
    assert (G := alias_deserialize_iff nn order d v (pr_names c P) wf perm ea). intros p o. rewrite h2. unfold filled.
    destruct (dget p v) as [y|] eqn:ey.
    - assert (gy := proj1 (G p y) ey). split.
      + intros m. inversion m as [z gz|z nz|nz|nz]; subst; try (destruct (nz y gy)). apply G in gz. congruence.
      + intros <-. constructor. exact gy.
    - assert (ny : forall z, ~ Gives nn d p z) by (intros z gz; apply G in gz; congruence).
      assert (nd : forall e, dget p (nc_defaults c) = Some (Err e) -> False).
      { intros e q. destruct (h4 p) as (z & q'); [exact (dget_Some_key _ _ _ q)|apply dget_None; exact ey|congruence]. }
      split.
      + intros m. inversion m as [z gz|z nz ed|nz ip nd'|nz ip]; subst; [destruct (ny z gz)|rewrite ed; reflexivity| |].
        * apply dget_None in nd'. rewrite nd'. apply (mem_In EqDec_string) in ip. rewrite ip. reflexivity.
        * assert (q : dget p (nc_defaults c) = None).
          { apply dget_None. intros i. exact (ip (pr_declared c P p i)). }
          rewrite q. apply (mem_not_In EqDec_string) in ip. rewrite ip. reflexivity.
      + intros <-. destruct (dget p (nc_defaults c)) as [[z|e]|] eqn:ed.
        * apply mb_default; assumption.
        * destruct (nd e eq_refl).
        * destruct (mem_spec EqDec_string p (nm_props nn)) as [i|i].
          -- apply mb_null; [exact ny|exact i|apply dget_None; exact ed].
          -- apply mb_none; [exact ny|exact i].
  Qed.

  Lemma defaults_total l : (forall k, In k (dkeys (nc_defaults c)) -> In k (dkeys l) \/ exists v, dget k (nc_defaults c) = Some (Ok v)) ->
    exists d, defaults (nc_defaults c) l = Ok d.
  Proof.
    intros h. destruct (defaults (nc_defaults c) l) as [d|x] eqn:e; [eauto|]. exfalso. apply defaults_err in e. destruct e as (k & i & n).
    destruct (h k) as [j|(v & q)]; [apply (in_map fst) in i; exact i|contradiction|]. apply (In_dget _ _ _ (pr_defaults c P)) in i. congruence.
  Qed.
  Lemma fill_total l d : defaults (nc_defaults c) l = Ok d ->
    (snd (topological_sort (nc_deps c)) = Ok tt \/ forall k, filled c l k = None) ->
    exists r, fill c l = Ok r.
  Proof.
    intros ed ho. unfold fill. rewrite ed. cbn [rbind]. cbn zeta. assert (fm := fill_m c l d P ed).
    set (m := (l ++ d) ++ nulls (nm_props nn) (l ++ d)) in *.
    assert (km : forall k, In k (dkeys m) <-> filled c l k <> None).
    { intros k. rewrite dkeys_iff, fm. destruct (filled c l k) as [v|]; [split; [discriminate|eauto]|split; [intros (v & q); discriminate|congruence]]. }
    destruct (picked_all m (fst (call_order [] (dkeys m) (nc_deps c)))) as (r & er).
    { intros k i. apply order_fst in i. destruct i as [[]|i]. exact i. }
    rewrite er. cbn [rbind]. replace (snd (call_order [] (dkeys m) (nc_deps c))) with (@Ok unit tt); [eexists; reflexivity|].
    symmetry. apply order_snd. destruct ho as [ho|ho]; [left; exact ho|]. right. intros k i. apply km in i. destruct (i (ho k)).
  Qed.
  Lemma fill_finish order shared d v : (d <> [] \/ shared = []) -> alias_deserialize nn order d = Ok v ->
    new_data c order shared d = do r <- fill c v; match r with [] => Ok Shared | _ => Ok (Own r) end.
  Proof.
    intros hd ea. unfold new_data. rewrite ea. cbn [rbind]. destruct v as [|p v]; [|reflexivity].
    destruct hd as [hd|hd]; [destruct (alias_nonempty _ _ _ _ hd ea eq_refl)|]. rewrite hd. reflexivity.
  Qed.

  (** When an object is made: the values of negated aliases have opposites, the defaults needed can be made, and there is no cycle of
      dependencies *)
  Theorem new_accepted : forall order shared d, dwf d -> Permutation order (to_translate nn d) -> d <> [] \/ shared = [] ->
    ~ (exists z, Cyclic (nc_deps c) z) ->
    ((exists x, new_data c order shared d = Ok x) <->
     (forall a p v, In (a, p) (nm_neg nn) -> dget a d = Some v -> exists w, Opposite v w) /\
     (forall k e, dget k (nc_defaults c) = Some (Err e) -> exists v, Gives nn d k v)).
  Proof.
    intros order shared d wf perm hd ac. split.
    - intros (x & h). destruct (new_anatomy order shared d x hd h) as (v & ea & ef). destruct (fill_ok c v _ P ef) as (h1 & h2 & _ & h4).
      assert (G := alias_deserialize_iff nn order d v (pr_names c P) wf perm ea). split.
      + intros a p y i ey. destruct (py_neg y) as [w|er] eqn:en; [exists w; apply py_neg_spec; exact en|]. exfalso.
        destruct (alias_deserialize_fails nn order d (pr_names c P) wf perm) as ((_ & q) & _).
        rewrite ea in q. discriminate q. exists a, p, y. split; [exact i|]. split; [exact ey|]. apply py_neg_err.
        destruct y; try discriminate en; reflexivity.
      + intros k e ed. destruct (dget k v) as [z|] eqn:ez; [exists z; apply G; exact ez|]. exfalso.
        destruct (h4 k) as (z & q); [exact (dget_Some_key _ _ _ ed)|apply dget_None; exact ez|congruence].
    - intros (h1 & h3). destruct (alias_deserialize nn order d) as [v|e] eqn:ea.
      2:{ exfalso. destruct (alias_deserialize_fails nn order d (pr_names c P) wf perm) as (f1 & f2).
          assert (e = TypeError) by (apply f2; exact ea). subst e. apply f1 in ea. destruct ea as (a & p & y & i & ey & no).
          destruct (h1 a p y i ey) as (w & o). exact (no w o). }
      assert (G := alias_deserialize_iff nn order d v (pr_names c P) wf perm ea).
      rewrite (fill_finish order shared d v hd ea).
      destruct (defaults_total v) as (dd & ed).
      { intros k i. apply dkeys_iff in i. destruct i as ([y|e] & i); [right; eauto|]. left. destruct (h3 k e i) as (z & gz). apply G in gz.
        exact (dget_Some_key _ _ _ gz). }
      destruct (fill_total v dd ed) as (r & er).
      + left. destruct (topological_sort_detects_cycles _ _ (nc_deps c) (pr_deps c P)) as (t & _). apply t. exact ac.
      + rewrite er. cbn [rbind]. destruct r; eexists; reflexivity.
  Qed.
  (** the errors: a negated alias without opposite, a default that cannot be made, a cycle of dependencies *)
  Theorem new_errors : forall order shared d e, dwf d -> Permutation order (to_translate nn d) -> d <> [] \/ shared = [] ->
    new_data c order shared d = Err e ->
    (e = TypeError /\ exists a p v, In (a, p) (nm_neg nn) /\ dget a d = Some v /\ forall w, ~ Opposite v w) \/
    (exists k, dget k (nc_defaults c) = Some (Err e) /\ forall v, ~ Gives nn d k v) \/
    (e = AssertionError /\ exists z, Cyclic (nc_deps c) z).
  Proof.
    intros order shared d e wf perm hd h. destruct (alias_deserialize nn order d) as [v|x] eqn:ea.
    2:{ left. unfold new_data in h. rewrite ea in h. injection h as <-.
        destruct (alias_deserialize_fails nn order d (pr_names c P) wf perm) as (f1 & f2). assert (x = TypeError) by (apply f2; exact ea). subst x.
        split; [reflexivity|apply f1; exact ea]. }
    assert (G := alias_deserialize_iff nn order d v (pr_names c P) wf perm ea).
    assert (GN : forall k, ~ In k (dkeys v) -> forall z, ~ Gives nn d k z).
    { intros k n z gz. apply G in gz. apply n. exact (dget_Some_key _ _ _ gz). }
    rewrite (fill_finish order shared d v hd ea) in h. unfold fill in h. destruct (defaults (nc_defaults c) v) as [dd|x] eqn:ed.
    2:{ cbn [rbind] in h. injection h as ->. right. left. apply defaults_err in ed. destruct ed as (k & i & n). exists k.
        split; [apply (In_dget _ _ _ (pr_defaults c P)); exact i|apply GN; exact n]. }
    cbn [rbind] in h. cbn zeta in h. assert (fm := fill_m c v dd P ed). set (m := (v ++ dd) ++ nulls (nm_props nn) (v ++ dd)) in *.
    destruct (picked m (fst (call_order [] (dkeys m) (nc_deps c)))) as [r|x] eqn:ep; cbn [rbind] in h.
    - destruct (snd (call_order [] (dkeys m) (nc_deps c))) as [[]|x] eqn:eo; cbn [rbind] in h; [destruct r; discriminate|].
      right. right. destruct (topological_sort_terminates _ _ (nc_deps c)) as [t|t].
      + assert (q := proj2 (order_snd [] (dkeys m) (nc_deps c)) (or_introl t)). congruence.
      + destruct (topological_sort_detects_cycles _ _ (nc_deps c) (pr_deps c P)) as (_ & t2). split; [|apply t2; exact t].
        injection h as <-. unfold call_order in eo. destruct (filter _ (dedup (dkeys m))); [discriminate|]. rewrite t in eo. cbn [snd] in eo. congruence.
    - exfalso. apply picked_err in ep. destruct ep as (_ & k & i & n). apply order_fst in i. destruct i as [[]|i]. exact (n i).
  Qed.

  Lemma gives_plain d p v : Gives nn d p v -> ~ other_name nn p.
  Proof.
    assert (S := pr_names c P). intros g. destruct g as [a x w i|a x _ i|a x _ i|x]; [| | |assumption];
      apply (sep_target _ S a p); tauto.
  Qed.
  (** Making an object from the items of another gives the same items *)
  Theorem new_again : forall order shared d x order', dwf d -> Permutation order (to_translate nn d) -> d <> [] \/ shared = [] ->
    new_data c order shared d = Ok x -> let r := items shared x in r <> [] -> Permutation order' (to_translate nn r) ->
    exists x', new_data c order' shared r = Ok x' /\ forall p, dget p (items shared x') = dget p r.
  Proof.
    intros order shared d x order' wf perm hd h r nr perm'. destruct (new_anatomy order shared d x hd h) as (v & ea & ef). fold r in ef.
    destruct (fill_ok c v _ P ef) as (h1 & h2 & _ & h4).
    assert (G := alias_deserialize_iff nn order d v (pr_names c P) wf perm ea).
    assert (plain : forall p, In p (dkeys r) -> ~ other_name nn p).
    { intros p i. apply dkeys_iff in i. destruct i as (y & i). rewrite h2 in i. unfold filled in i. destruct (dget p v) as [z|] eqn:ez.
      - apply G in ez. exact (gives_plain d p z ez).
      - apply (pr_plain c P). destruct (dget p (nc_defaults c)) as [[z|e]|] eqn:edk; [|discriminate|].
        + exact (pr_declared c P p (dget_Some_key _ _ _ edk)).
        + destruct (mem p (nm_props nn)) eqn:em; [|discriminate]. apply (mem_In EqDec_string). exact em. }
    assert (away : forall a, other_name nn a -> dget a r = None) by (intros a o; apply dget_None; intros i; exact (plain a i o)).
    assert (S := pr_names c P).
    destruct (alias_deserialize nn order' r) as [v'|e] eqn:ea'.
    2:{ exfalso. destruct (alias_deserialize_fails nn order' r S h1 perm') as (f1 & f2). assert (e = TypeError) by (apply f2; exact ea'). subst e.
        apply f1 in ea'. destruct ea' as (a & p & y & i & ey & _). rewrite (away a) in ey; [discriminate|]. right. right. exact (key_of _ _ _ i). }
    assert (G' := alias_deserialize_iff nn order' r v' S h1 perm' ea').
    assert (same : forall p, dget p v' = dget p r).
    { intros p. destruct (dget p r) as [y|] eqn:ey.
      - apply G'. apply gives_own; [| |apply plain; exact (dget_Some_key _ _ _ ey)|exact ey].
        + intros b [i|i]; apply away; [right; right|right; left]; exact (key_of _ _ _ i).
        + intros b i nb. apply away. left. split; [exact (key_of _ _ _ i)|exact nb].
      - destruct (dget p v') as [z|] eqn:ez; [|reflexivity]. apply G' in ez.
        destruct ez as [a y w i e|a y _ i e|a y _ i nb e|y _ _ _ e]; [| | |congruence]; rewrite (away a) in e; try discriminate.
        + right. right. exact (key_of _ _ _ i).
        + right. left. exact (key_of _ _ _ i).
        + left. split; [exact (key_of _ _ _ i)|exact nb]. }
    assert (fs : forall p, filled c v' p = dget p r).
    { intros p. unfold filled. rewrite same. destruct (dget p r) as [y|] eqn:ey; [reflexivity|]. rewrite h2 in ey. unfold filled in ey.
      destruct (dget p v) as [z|] eqn:ez; [discriminate|]. destruct (dget p (nc_defaults c)) as [[z|e]|] eqn:edk; [discriminate|reflexivity|exact ey]. }
    rewrite (fill_finish order' shared r v' (or_introl nr) ea').
    destruct (defaults_total v') as (dd & ed).
    { intros k i. destruct (dget k v) as [z|] eqn:ez.
      - left. apply dkeys_iff. rewrite same, h2. unfold filled. rewrite ez. eauto.
      - right. apply h4; [exact i|apply dget_None; exact ez]. }
    destruct (fill_total v' dd ed) as (r' & er).
    - unfold fill in ef. destruct (defaults (nc_defaults c) v) as [d0|] eqn:ed0; [|discriminate]. cbn [rbind] in ef. cbn zeta in ef.
      assert (fm := fill_m c v d0 P ed0). set (m := (v ++ d0) ++ nulls (nm_props nn) (v ++ d0)) in *.
      destruct (picked m _) as [q|]; [|discriminate]. cbn [rbind] in ef. destruct (snd (call_order _ _ _)) as [[]|] eqn:eo; [|discriminate].
      apply order_snd in eo. destruct eo as [eo|eo]; [left; exact eo|]. right. intros k. rewrite fs, h2, <- fm. apply dget_None. intros i. exact (eo k i).
    - rewrite er. cbn [rbind]. assert (nr' : r' <> []).
      { intros ->. destruct (fill_ok c v' [] P er) as (_ & g & _). destruct r as [|[k y] r]; [contradiction|]. specialize (g k). rewrite fs in g.
        cbn [dget] in g. destruct (eq_dec k k); [discriminate|contradiction]. }
      destruct r' as [|q r']; [contradiction|]. eexists. split; [reflexivity|]. intros p. cbn [items].
      destruct (fill_ok c v' _ P er) as (_ & g & _). rewrite g. apply fs.
  Qed.
End New.

(** Keywords are the items when there is no value and none has the name of a parameter *)
Theorem keywords_are_items : forall kw, (forall k, In k (dkeys kw) -> ~ In k ["lazyLoading"; "items"; "validate"; "context"; "session"]%string) -> given None kw = kw.
Proof.
  intros kw h. unfold given. apply filter_all. intros [k v] i. cbn [fst]. apply negb_true_iff, mem_not_In. apply h. apply (in_map fst) in i. exact i.
Qed.
(** They are silently ignored when there is one, whatever they are *)
Theorem keywords_ignored_refuted : forall d kw c order shared, new_data c order shared (given (Some d) kw) = new_data c order shared d.
Proof. reflexivity. Qed.
(** A property with the name of a parameter cannot be given by keyword: it gets its default or null *)
Theorem reserved_keyword_refuted : forall c order shared kw x p, Proper c -> dwf kw ->
  Permutation order (to_translate (nc_names c) (given None kw)) -> given None kw <> [] \/ shared = [] ->
  new_data c order shared (given None kw) = Ok x -> In p ["lazyLoading"; "items"; "validate"; "context"; "session"]%string -> In p (nm_props (nc_names c)) ->
  (forall a, In (a, p) (nm_neg (nc_names c)) \/ In (a, p) (nm_alias (nc_names c)) \/ In (a, p) (nm_trans (nc_names c)) -> ~ In a (dkeys kw)) ->
  dget p (items shared x) = Some (match dget p (nc_defaults c) with Some (Ok v) => v | _ => VNone end).
Proof.
  intros c order shared kw x p P wf perm hd h ir ip ho. assert (wg : dwf (given None kw)).
  { unfold given, dwf, dkeys in *. clear -wf. induction kw as [|[k v] kw IH]; cbn [filter fst map] in *; [constructor|]. inversion wf; subst.
    destruct (negb (mem k reserved)); cbn [map fst]; [|auto]. constructor; [|auto]. intros i. apply H1. apply in_map_iff in i.
    destruct i as (q & <- & i). apply filter_In in i. apply in_map. apply i. }
  assert (sub : forall a, ~ In a (dkeys kw) -> dget a (given None kw) = None).
  { intros a n. apply dget_None. intros i. apply n. unfold given, dkeys in *. apply in_map_iff in i. destruct i as (q & <- & i).
    apply filter_In in i. apply in_map. apply i. }
  assert (own : dget p (given None kw) = None).
  { apply dget_None. unfold given. intros i. unfold dkeys in i. apply in_map_iff in i. destruct i as (q & <- & i). apply filter_In in i.
    destruct i as (_ & i). apply negb_true_iff, mem_not_In in i. contradiction. }
  assert (ng : forall v, ~ Gives (nc_names c) (given None kw) p v).
  { intros v g. destruct g as [a y w i e|a y _ i e|a y _ i nb e|y _ _ _ e]; [| | |congruence]; rewrite (sub a) in e; try discriminate; apply ho; tauto. }
  destruct (new_anatomy c P order shared _ x hd h) as (v & ea & ef). destruct (fill_ok c v _ P ef) as (_ & h2 & _ & h4). rewrite h2. unfold filled.
  assert (ev : dget p v = None).
  { destruct (dget p v) as [z|] eqn:ez; [|reflexivity]. apply (alias_deserialize_iff _ order _ v (pr_names c P) wg perm ea) in ez. destruct (ng z ez). }
  rewrite ev. destruct (dget p (nc_defaults c)) as [[z|e]|] eqn:ed; [reflexivity| |].
  - destruct (h4 p) as (z & q); [exact (dget_Some_key _ _ _ ed)|apply dget_None; exact ev|congruence].
  - apply (mem_In EqDec_string) in ip. rewrite ip. reflexivity.
Qed.

(** ** objects one after the other *)
Lemma new_own c order d x : Proper c -> nm_props (nc_names c) <> [] -> new_data c order [] d = Ok x -> exists r, x = Own r.
Proof.
  intros P np h. unfold new_data in h. destruct (alias_deserialize (nc_names c) order d) as [v|]; [|discriminate]. cbn [rbind] in h.
  destruct (fill c (match v with [] => [] | _ => v end)) as [r|] eqn:ef; [|discriminate]. cbn [rbind] in h. destruct r as [|q r]; injection h as <-; [|eauto].
  exfalso. destruct (fill_ok _ _ _ P ef) as (_ & g & _ & g4). destruct (nm_props (nc_names c)) as [|p ps] eqn:ep; [contradiction|].
  specialize (g p). unfold filled in g. cbn [dget] in g. destruct (dget p _) eqn:e1; [discriminate|].
  destruct (dget p (nc_defaults c)) as [[z|e]|] eqn:ed; [discriminate| |].
  - destruct (g4 p) as (z & q); [exact (dget_Some_key _ _ _ ed)|apply dget_None; exact e1|congruence].
  - rewrite ep in g. cbn [mem] in g. destruct (eq_dec p p); [discriminate|contradiction].
Qed.
Lemma nth_changed {A} i (x : A) l j : i < length l -> nth_error (firstn i l ++ x :: skipn (S i) l) j = if Nat.eqb j i then Some x else nth_error l j.
Proof.
  revert i j. induction l as [|a l IH]; intros i j h; [cbn in h; lia|]. destruct i as [|i]; [destruct j; reflexivity|].
  destruct j as [|j]; [reflexivity|]. cbn [firstn skipn app nth_error Nat.eqb]. apply IH. cbn [length] in h. lia.
Qed.
Lemma run_snoc ops o w : run (ops ++ [o]) w = step (run ops w) o.
Proof. unfold run. rewrite fold_left_app. reflexivity. Qed.
Lemma own_run_snoc i ops o d : own_run i (ops ++ [o]) d = own_step i (own_run i ops d) o.
Proof. unfold own_run. rewrite fold_left_app. reflexivity. Qed.

(** Objects of classes that declare properties are independent: each has what it was made of, changed by what was done to it, and
    the common default stays empty *)
Theorem objects_independent : forall ops,
  (forall c order value kw, In (ONew c order value kw) ops -> Proper c /\ nm_props (nc_names c) <> []) ->
  w_default (run ops start) = [] /\
  forall i d, content (run ops start) i = Some d ->
    exists pre c order value kw post r, ops = pre ++ ONew c order value kw :: post /\ length (w_objs (run pre start)) = i /\
      new_data c order [] (given value kw) = Ok (Own r) /\ d = own_run i post r.
Proof.
  intros ops H.
  assert (G : w_default (run ops start) = [] /\ forall i x, nth_error (w_objs (run ops start)) i = Some x -> exists d, x = Own d /\
    exists pre c order value kw post r, ops = pre ++ ONew c order value kw :: post /\ length (w_objs (run pre start)) = i /\
      new_data c order [] (given value kw) = Ok (Own r) /\ d = own_run i post r).
  { induction ops as [|o ops IH] using rev_ind; [split; [reflexivity|]; intros [|i] x e; discriminate|].
    destruct IH as (I1 & I2); [intros c order value kw i; apply (H c order value kw); apply in_or_app; left; exact i|].
    rewrite run_snoc. set (w := run ops start) in *.
    assert (keep : forall i x, nth_error (w_objs w) i = Some x -> (forall d, own_step i d o = d) ->
      exists d, x = Own d /\ exists pre c order value kw post r, ops ++ [o] = pre ++ ONew c order value kw :: post /\
        length (w_objs (run pre start)) = i /\ new_data c order [] (given value kw) = Ok (Own r) /\ d = own_run i post r).
    { intros i x e q. destruct (I2 i x e) as (d & -> & pre & c & order & value & kw & post & r & -> & h2 & h3 & ->).
      eexists. split; [reflexivity|]. exists pre, c, order, value, kw, (post ++ [o]), r. split; [rewrite <- app_assoc; reflexivity|].
      split; [exact h2|]. split; [exact h3|]. rewrite own_run_snoc, q. reflexivity. }
    assert (mod_ : forall j f, (forall d, own_step j d o = f d) -> (forall i d, i <> j -> own_step i d o = d) ->
      w_default (change f j w) = [] /\ forall i x, nth_error (w_objs (change f j w)) i = Some x -> exists d, x = Own d /\
      exists pre c order value kw post r, ops ++ [o] = pre ++ ONew c order value kw :: post /\
        length (w_objs (run pre start)) = i /\ new_data c order [] (given value kw) = Ok (Own r) /\ d = own_run i post r).
    { intros j f q1 q2. unfold change. destruct (nth_error (w_objs w) j) as [y|] eqn:ej.
      - destruct (I2 j y ej) as (d & -> & pre & c & order & value & kw & post & r & eo & h2 & h3 & h4). cbn [w_default w_objs].
        split; [exact I1|]. intros i x e. rewrite nth_changed in e by (apply nth_error_Some; congruence). destruct (Nat.eqb_spec i j) as [->|n].
        + injection e as <-. eexists. split; [reflexivity|]. exists pre, c, order, value, kw, (post ++ [o]), r.
          split; [rewrite eo, <- app_assoc; reflexivity|]. split; [exact h2|]. split; [exact h3|]. rewrite own_run_snoc, q1, h4. reflexivity.
        + apply keep; [exact e|]. intros d'. apply q2. exact n.
      - split; [exact I1|]. intros i x e. apply keep; [exact e|]. intros d'. apply q2. intros ->. congruence. }
    destruct o as [c order value kw|j k v|j k]; cbn [step].
    - destruct (H c order value kw) as (P & np); [apply in_or_app; right; left; reflexivity|].
      destruct (new_data c order (w_default w) (given value kw)) as [x|e] eqn:en.
      + cbn [w_default w_objs]. split; [exact I1|]. intros i y ey. rewrite I1 in en. destruct (new_own _ _ _ _ P np en) as (r & ->).
        destruct (Nat.ltb_spec i (length (w_objs w))) as [l|g].
        * rewrite nth_error_app1 in ey by exact l. apply keep; [exact ey|reflexivity].
        * rewrite nth_error_app2 in ey by exact g. destruct (i - length (w_objs w)) as [|u] eqn:ei; [|destruct u; discriminate].
          injection ey as <-. assert (i = length (w_objs w)) by lia. subst i. exists r. split; [reflexivity|].
          exists ops, c, order, value, kw, [], r. split; [reflexivity|]. split; [reflexivity|]. split; [exact en|reflexivity].
      + split; [exact I1|]. intros i y ey. apply keep; [exact ey|reflexivity].
    - apply mod_; intros; cbn [own_step]; [rewrite Nat.eqb_refl; reflexivity|]. destruct (Nat.eqb_spec i j); [contradiction|reflexivity].
    - apply mod_; intros; cbn [own_step]; [rewrite Nat.eqb_refl; reflexivity|]. destruct (Nat.eqb_spec i j); [contradiction|reflexivity]. }
  destruct G as (G1 & G2). split; [exact G1|]. intros i d e. unfold content in e. destruct (nth_error (w_objs (run ops start)) i) as [x|] eqn:ex; [|discriminate].
  destruct (G2 i x ex) as (d' & -> & h). injection e as <-. exact h.
Qed.

(** But an empty object of a class without properties keeps its data in the common default: what is set on it becomes an item of
    every object made of nothing afterwards, whatever its class *)
Theorem common_default_refuted : forall c0 c order k v d, nm_props (nc_names c0) = [] -> nc_defaults c0 = [] ->
  Proper c -> content (run [ONew c0 [] None []; OSet 0 k v; ONew c order None []] start) 1 = Some d -> dget k d = Some v.
Proof.
  intros c0 c order k v d e1 e2 P h. unfold run in h. cbn [fold_left] in h.
  assert (s1 : step start (ONew c0 [] None []) = {| w_default := []; w_objs := [Shared] |}).
  { cbn [step start w_default given filter]. unfold new_data. rewrite alias_nil. cbn [rbind]. unfold fill. rewrite e2. cbn [defaults rbind app].
    unfold nulls. rewrite e1. reflexivity. }
  rewrite s1 in h. cbn [step change nth_error w_objs w_default] in h. unfold change in h. cbn [nth_error w_objs w_default given filter] in h.
  unfold new_data in h. rewrite alias_nil in h. cbn [rbind] in h. destruct (fill c (dset k v [])) as [r|] eqn:ef; [|discriminate]. cbn [rbind] in h.
  destruct (fill_ok c _ _ P ef) as (_ & g & _). specialize (g k). unfold filled in g. rewrite dget_dset_same in g.
  destruct r as [|q r]; [discriminate|]. cbn in h. congruence.
Qed.

Local Open Scope string_scope.
Local Open Scope list_scope.
Definition accounts : ncls := {|
  nc_names := account; nc_defaults := [("credit", Ok (VInt 0))]; nc_deps := [("credit", ["first-name"])] |}.
Definition bag : ncls := {|
  nc_names := {| nm_props := []; nm_trans := []; nm_alias := []; nm_neg := []; nm_additional := true; nm_clean := fun s => s |};
  nc_defaults := []; nc_deps := [] |}.
Example accounts_proper : Proper accounts.
Proof.
  constructor; cbn.
  - exact account_separate.
  - repeat constructor; cbn; intuition discriminate.
  - unfold other_name. cbn. intros p h. intuition (subst; discriminate).
  - repeat constructor. intros [].
  - intuition.
  - repeat constructor. intros [].
Qed.
Example accounts_cases :
  new_data accounts ["first_name"] [] [("debit", VInt 5); ("first_name", VStr "A"); ("x", VInt 1)] =
    Ok (Own [("first-name", VStr "A"); ("credit", VInt (-5)); ("x", VInt 1); ("name", VNone)]) /\
  new_data accounts [] [] (given None [("surname", VStr "B"); ("items", VInt 2)]) =
    Ok (Own [("first-name", VNone); ("credit", VInt 0); ("name", VStr "B")]) /\
  new_data accounts [] [] [("debit", VStr "5")] = Err TypeError.
Proof. repeat split. Qed.
Example accounts_history :
  let ops := [ONew accounts [] None [("surname", VStr "B")]; ONew accounts [] None []; OSet 0 "credit" (VInt 3); ODel 1 "name"] in
  content (run ops start) 0 = Some [("first-name", VNone); ("credit", VInt 3); ("name", VStr "B")] /\
  content (run ops start) 1 = Some [("first-name", VNone); ("credit", VInt 0)].
Proof. split; reflexivity. Qed.
Example bag_history :
  content (run [ONew bag [] None []; OSet 0 "x" (VInt 1); ONew accounts [] None []] start) 1 =
    Some [("first-name", VNone); ("credit", VInt 0); ("x", VInt 1); ("name", VNone)].
Proof. reflexivity. Qed.

Print Assumptions new_members.
Print Assumptions new_accepted.
Print Assumptions new_errors.
Print Assumptions new_again.
Print Assumptions keywords_are_items.
Print Assumptions keywords_ignored_refuted.
Print Assumptions reserved_keyword_refuted.
Print Assumptions objects_independent.
Print Assumptions common_default_refuted.
