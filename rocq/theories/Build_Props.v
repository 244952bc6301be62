(** Properties of schema inheritance (C34). *)
From Verif Require Import Build_Model Build_Spec.
Local Open Scope string_scope. Local Open Scope list_scope.

Section CInd.
  Variable P : cdef -> Prop.
  Hypothesis H : forall s bs, (forall b, In b bs -> P b) -> P (CDef s bs).
  Fixpoint cdef_ind' (t : cdef) : P t :=
    match t with
    | CDef s bs => H s bs ((fix go (l : list cdef) : forall b, In b l -> P b :=
        match l with
        | [] => fun b h => match h with end
        | x :: l' => fun b h => match h with or_introl e => match e with eq_refl => cdef_ind' x end | or_intror h' => go l' b h' end
        end) bs)
    end.
End CInd.

Lemma Ancestor_inv s bs s' : Ancestor (CDef s bs) s' <-> s' = s \/ exists b, In b bs /\ Ancestor b s'.
Proof.
  split.
  - intros h. inversion h; subst; [left; reflexivity|right; eauto].
  - intros [->|(b & i & h)]; [constructor|econstructor; eassumption].
Qed.

(** * the sets *)
Section Sets.
  Variable own_of : schema -> list string.
  Variable got : klass -> list string.
  Hypothesis built : forall s bs, got (build s bs) = unions (own_of s) (map got bs).

  Lemma set_union_tree t x : In x (got (build_tree t)) <-> exists s, Ancestor t s /\ In x (own_of s).
  Proof.
    induction t as [s bs IH] using cdef_ind'. cbn [build_tree]. rewrite built. unfold unions. rewrite dedup_In, in_app_iff, in_concat. split.
    - intros [i|(l & il & i)]; [exists s; split; [constructor|exact i]|].
      rewrite map_map in il. apply in_map_iff in il. destruct il as (b & <- & ib). apply (IH b ib) in i.
      destruct i as (s' & a & i). exists s'. split; [econstructor; eassumption|exact i].
    - intros (s' & a & i). apply Ancestor_inv in a. destruct a as [->|(b & ib & a)]; [left; exact i|right].
      exists (got (build_tree b)). split; [|apply (IH b ib); eauto]. rewrite map_map. apply (in_map (fun x => got (build_tree x))). exact ib.
  Qed.
End Sets.

(** required, read-only, not-serialised and not-validated names are those of the class and of all its ancestors *)
Theorem inherit_constraints : forall t x,
  (In x (kl_required (build_tree t)) <-> exists s, Ancestor t s /\ In x (own (sc_required s) (at_required s))) /\
  (In x (kl_readonly (build_tree t)) <-> exists s, Ancestor t s /\ In x (own (sc_readonly s) (at_readonly s))) /\
  (In x (kl_notser (build_tree t)) <-> exists s, Ancestor t s /\ In x (own (sc_notser s) (at_notser s))) /\
  (In x (kl_notval (build_tree t)) <-> exists s, Ancestor t s /\ In x (own (sc_notval s) (at_notval s))).
Proof.
  intros t x. split; [|split; [|split]].
  - apply (set_union_tree (fun s => own (sc_required s) (at_required s)) kl_required). reflexivity.
  - apply (set_union_tree (fun s => own (sc_readonly s) (at_readonly s)) kl_readonly). reflexivity.
  - apply (set_union_tree (fun s => own (sc_notser s) (at_notser s)) kl_notser). reflexivity.
  - apply (set_union_tree (fun s => own (sc_notval s) (at_notval s)) kl_notval). reflexivity.
Qed.
Print Assumptions inherit_constraints.

(** * the tables *)
Lemma dget_flat_map {V} (g : string -> option V) ks p : NoDup ks ->
  dget p (flat_map (fun k => match g k with Some v => [(k, v)] | None => [] end) ks) = if mem p ks then g p else None.
Proof.
  induction ks as [|k ks IH]; intros nd; [reflexivity|]. inversion nd as [|? ? ni nd']; subst. cbn [flat_map mem].
  assert (dapp : forall l1 l2 : dict string V, dget p (l1 ++ l2) = match dget p l1 with Some v => Some v | None => dget p l2 end).
  { induction l1 as [|[k1 v1] l1 IH1]; intros l2; [reflexivity|]. cbn [app dget]. destruct (eq_dec p k1); [reflexivity|apply IH1]. }
  rewrite dapp, IH by exact nd'. destruct (eq_dec p k) as [->|ne]; cbn [orb].
  - rewrite (proj2 (mem_not_In _ _ _) ni). destruct (g k) as [v|]; cbn [dget]; [|reflexivity].
    destruct (eq_dec k k); [reflexivity|contradiction].
  - destruct (g k) as [v|]; cbn [dget]; [|reflexivity]. destruct (eq_dec p k); [contradiction|reflexivity].
Qed.
Lemma flat_map_ext' {A B} (f g : A -> list B) l : (forall x, f x = g x) -> flat_map f l = flat_map g l.
Proof. intros h. induction l as [|a l IH]; [reflexivity|]. cbn [flat_map]. rewrite h, IH. reflexivity. Qed.

Lemma chain_get {V} (o : dict string V) bases p :
  dget p (chain o bases) = match find (fun m => dmem p m) (o :: bases) with Some m => dget p m | None => None end.
Proof.
  unfold chain. cbv zeta.
  rewrite (flat_map_ext' _ (fun k => match (match find (fun m => dmem k m) (o :: bases) with Some m => dget k m | None => None end) with
                                     | Some v => [(k, v)] | None => [] end)).
  2:{ intros k. destruct (find _ _); reflexivity. }
  rewrite dget_flat_map by apply dedup_NoDup. destruct (mem_spec EqDec_string p (dedup (flat_map dkeys (o :: bases)))) as [i|n]; [reflexivity|].
  destruct (find (fun m => dmem p m) (o :: bases)) as [m|] eqn:e; [|reflexivity]. apply find_some in e. destruct e as [im hm].
  destruct n. apply dedup_In. apply in_flat_map. exists m. split; [exact im|]. apply dmem_In. exact hm.
Qed.

Section Tables.
  Variable V : Type.
  Variable own_of : schema -> dict string V.
  Variable got : klass -> dict string V.
  Hypothesis built : forall s bs, got (build s bs) = chain (own_of s) (map got bs).

  Lemma table_none t p : dget p (got (build_tree t)) = None <-> forall s, Ancestor t s -> dget p (own_of s) = None.
  Proof.
    induction t as [s bs IH] using cdef_ind'. cbn [build_tree]. rewrite built, chain_get. cbn [find]. unfold dmem at 1.
    destruct (dget p (own_of s)) as [v|] eqn:e.
    - split; [rewrite e; discriminate|]. intros h. rewrite (h s (anc_self s bs)) in e. discriminate.
    - destruct (find (fun m => dmem p m) (map got (map build_tree bs))) as [m|] eqn:ef.
      + apply find_some in ef. destruct ef as [im hm]. rewrite map_map in im. apply in_map_iff in im. destruct im as (b & <- & ib).
        unfold dmem in hm. destruct (dget p (got (build_tree b))) as [v|] eqn:eb; [|discriminate]. split; [discriminate|].
        intros h. rewrite (proj2 (IH b ib)) in eb; [discriminate|]. intros s' a. apply h. econstructor; eassumption.
      + split; [|reflexivity]. intros _ s' a. apply Ancestor_inv in a. destruct a as [->|(b & ib & a)]; [exact e|].
        refine (proj1 (IH b ib) _ s' a). pose proof (find_none _ _ ef (got (build_tree b))) as h. cbv beta in h.
        rewrite map_map in h. specialize (h (in_map (fun x => got (build_tree x)) _ _ ib)). unfold dmem in h.
        destruct (dget p (got (build_tree b))); [discriminate|reflexivity].
  Qed.

  Lemma table_inherits t p v : dget p (got (build_tree t)) = Some v <-> Inherits own_of t p v.
  Proof.
    revert v. induction t as [s bs IH] using cdef_ind'. intros v. cbn [build_tree]. rewrite built, chain_get. cbn [find]. unfold dmem at 1.
    destruct (dget p (own_of s)) as [v0|] eqn:e.
    - rewrite e. split.
      + intros h. constructor. congruence.
      + intros h. inversion h; subst; congruence.
    - rewrite map_map. split.
      + intros h.
        assert (sp : exists bs1 b bs2, bs = bs1 ++ b :: bs2 /\ (forall b', In b' bs1 -> dget p (got (build_tree b')) = None) /\
                       dget p (got (build_tree b)) = Some v).
        { clear IH. induction bs as [|b bs IHb]; [discriminate|]. cbn [map find] in h. unfold dmem at 1 in h.
          destruct (dget p (got (build_tree b))) as [w|] eqn:eb.
          - exists [], b, bs. split; [reflexivity|]. split; [intros ? []|congruence].
          - destruct (IHb h) as (bs1 & b1 & bs2 & -> & h1 & h2). exists (b :: bs1), b1, bs2. split; [reflexivity|]. split; [|exact h2].
            intros b' [<-|i]; auto. }
        destruct sp as (bs1 & b & bs2 & -> & h1 & h2). apply inh_base; [exact e| |].
        * intros b' s' ib a. apply (proj1 (table_none b' p) (h1 b' ib) s' a).
        * apply IH; [apply in_or_app; right; left; reflexivity|exact h2].
      + intros h. inversion h as [? ? ? ? h1|? bs1 b bs2 ? ? h1 h2 h3]; subst; [congruence|].
        apply IH in h3; [|apply in_or_app; right; left; reflexivity]. clear IH h e h1.
        induction bs1 as [|b1 bs1 IHb]; cbn [app map find]; unfold dmem at 1.
        * rewrite h3. exact h3.
        * rewrite (proj2 (table_none b1 p) (fun s' a => h2 b1 s' (or_introl eq_refl) a)). apply IHb.
          intros b' s' i a. apply (h2 b' s' (or_intror i) a).
  Qed.
End Tables.

(** properties, aliases and negated aliases: the class's own entry wins, then that of the earlier base *)
Theorem inherit_properties : forall t p v, dget p (kl_props (build_tree t)) = Some v <-> Inherits sc_props t p v.
Proof. apply table_inherits. reflexivity. Qed.
Print Assumptions inherit_properties.
Theorem inherit_aliases : forall t a p,
  (dget a (kl_aliases (build_tree t)) = Some p <-> Inherits sc_aliases t a p) /\
  (dget a (kl_negated (build_tree t)) = Some p <-> Inherits sc_negated t a p).
Proof. intros t a p. split; apply table_inherits; reflexivity. Qed.
Print Assumptions inherit_aliases.
(** a class has a property exactly when it or an ancestor declares it *)
Theorem inherit_properties_keys : forall t p,
  In p (dkeys (kl_props (build_tree t))) <-> exists s, Ancestor t s /\ In p (dkeys (sc_props s)).
Proof.
  intros t p. pose proof (table_none _ sc_props kl_props (fun _ _ => eq_refl) t p) as h. split.
  - intros i. destruct (dkeys_dget p _ i) as (v & e). apply (inherit_properties t p v) in e. clear i h.
    induction e as [s bs p v e|s bs1 b bs2 p v e1 e2 e3 IH].
    + exists s. split; [constructor|]. eapply dget_Some_key; exact e.
    + destruct IH as (s' & a & i). exists s'. split; [|exact i]. eapply anc_base; [|exact a]. apply in_or_app. right. left. reflexivity.
  - intros (s & a & i). destruct (mem_spec EqDec_string p (dkeys (kl_props (build_tree t)))) as [j|n]; [exact j|].
    apply dget_None in n. rewrite h in n. apply n in a. apply dget_None in a. contradiction.
Qed.
Print Assumptions inherit_properties_keys.

(** * dependencies *)
Definition dep (d : dict string (list string)) (k x : string) : Prop := exists l, dget k d = Some l /\ In x l.
Lemma add_deps_dep acc kv k x : dep (add_deps acc kv) k x <-> dep acc k x \/ (fst kv = k /\ In x (snd kv)).
Proof.
  unfold dep, add_deps. destruct kv as [k0 l0]. cbn [fst snd]. rewrite dget_dset. destruct (eq_dec k k0) as [->|n].
  - split.
    + intros (l & e & i). injection e as <-. apply dedup_In, in_app_iff in i. destruct i as [i|i]; [left|right; auto].
      destruct (dget k0 acc) as [s|]; [eauto|destruct i].
    + intros h. eexists. split; [reflexivity|]. apply dedup_In, in_app_iff. destruct h as [(l & e & i)|[_ i]]; [left; rewrite e; exact i|right; exact i].
  - split; [intros h; left; exact h|]. intros [h|[h _]]; [exact h|congruence].
Qed.
Lemma fold_deps_dep l : forall acc k x, dep (fold_left add_deps l acc) k x <-> dep acc k x \/ exists s, In (k, s) l /\ In x s.
Proof.
  induction l as [|[k0 l0] l IH]; intros acc k x; cbn [fold_left].
  - split; [auto|]. intros [h|(s & [] & _)]. exact h.
  - rewrite IH, add_deps_dep. cbn [fst snd]. split.
    + intros [[h|[-> i]]|(s & i & j)]; [left; exact h|right; exists l0; split; [left; reflexivity|exact i]|right; exists s; split; [right; exact i|exact j]].
    + intros [h|(s & [e|i] & j)]; [left; left; exact h|injection e as -> ->; left; right; auto|right; eauto].
Qed.
Lemma fold_deps_wf l : forall acc, dwf acc -> dwf (fold_left add_deps l acc).
Proof. induction l as [|kv l IH]; intros acc h; [exact h|]. apply IH. apply dwf_dset. exact h. Qed.
Lemma build_deps_wf t : dwf (kl_deps (build_tree t)).
Proof.
  destruct t as [s bs]. cbn [build_tree build kl_deps].
  assert (h : forall l acc, dwf acc -> dwf (fold_left (fun acc b => fold_left add_deps (kl_deps b) acc) l acc)).
  { induction l as [|b l IH]; intros acc ha; [exact ha|]. apply IH. apply fold_deps_wf. exact ha. }
  specialize (h (map build_tree bs) _ (fold_deps_wf (sc_deps s) [] (dwf_nil _ _))).
  destruct (primary_keys s (map build_tree bs)); [exact h|apply dwf_dset; exact h].
Qed.

Theorem inherit_dependencies : forall t k x, k <> "identityKeys" ->
  ((exists l, dget k (kl_deps (build_tree t)) = Some l /\ In x l) <->
   exists s l, Ancestor t s /\ In (k, l) (sc_deps s) /\ In x l).
Proof.
  intros t k x nk. induction t as [s bs IH] using cdef_ind'. cbn [build_tree]. fold (dep (kl_deps (build s (map build_tree bs))) k x).
  assert (e : dep (kl_deps (build s (map build_tree bs))) k x <->
    dep (fold_left (fun acc b => fold_left add_deps (kl_deps b) acc) (map build_tree bs) (fold_left add_deps (sc_deps s) [])) k x).
  { cbn [build kl_deps]. destruct (primary_keys s (map build_tree bs)) as [|p ps]; [reflexivity|]. unfold dep.
    rewrite dget_dset_other by exact nk. reflexivity. }
  rewrite e.
  assert (f : forall l acc, dep (fold_left (fun acc b => fold_left add_deps (kl_deps b) acc) l acc) k x <->
    dep acc k x \/ exists b, In b l /\ exists s, In (k, s) (kl_deps b) /\ In x s).
  { induction l as [|b l IHl]; intros acc; cbn [fold_left].
    - split; [auto|]. intros [h|(b & [] & _)]. exact h.
    - rewrite IHl, fold_deps_dep. split.
      + intros [[h|h]|(b' & i & h)]; [left; exact h|right; exists b; split; [left; reflexivity|exact h]|right; exists b'; split; [right; exact i|exact h]].
      + intros [h|(b' & [<-|i] & h)]; [left; left; exact h|left; right; exact h|right; eauto]. }
  rewrite f, fold_deps_dep. split.
  - intros [[(l & h & _)|(l & i & j)]|(kb & ib & l & i & j)]; [discriminate|exists s, l; split; [constructor|auto]|].
    apply in_map_iff in ib. destruct ib as (b & <- & ib).
    destruct (proj1 (IH b ib)) as (s' & l' & a & i' & j').
    { exists l. split; [|exact j]. apply In_dget; [apply build_deps_wf|exact i]. }
    exists s', l'. split; [econstructor; eassumption|auto].
  - intros (s' & l & a & i & j). apply Ancestor_inv in a. destruct a as [->|(b & ib & a)]; [left; right; eauto|]. right.
    destruct (proj2 (IH b ib)) as (l' & e' & i'); [exists s', l; auto|].
    exists (build_tree b). split; [apply in_map; exact ib|]. exists l'. split; [apply dget_In; exact e'|exact i'].
Qed.
Print Assumptions inherit_dependencies.

(** * primary keys: the class's own, else those of the bases in order; the identity keys depend on exactly them *)
Lemma pks_bases l : forall acc, NoDup acc -> 
  let r := fold_left (fun acc b => acc ++ filter (fun k => negb (mem k acc)) (kl_pks b)) l acc in
  (forall x, In x r <-> In x acc \/ exists b, In b l /\ In x (kl_pks b)).
Proof.
  induction l as [|b l IH]; intros acc nd r x; cbn [fold_left] in r; subst r.
  - split; [auto|]. intros [h|(b & [] & _)]. exact h.
  - assert (q : forall y, In y (acc ++ filter (fun k => negb (mem k acc)) (kl_pks b)) <-> In y acc \/ In y (kl_pks b)).
    { intros y. rewrite in_app_iff, filter_In, negb_true_iff, mem_not_In. destruct (in_dec string_dec y acc); tauto. }
    assert (g : forall l acc x, In x (fold_left (fun acc b => acc ++ filter (fun k => negb (mem k acc)) (kl_pks b)) l acc) <->
                In x acc \/ exists b, In b l /\ In x (kl_pks b)).
    { clear. induction l as [|b l IH]; intros acc x; cbn [fold_left].
      - split; [auto|]. intros [h|(b & [] & _)]. exact h.
      - rewrite IH, in_app_iff, filter_In, negb_true_iff, mem_not_In. split.
        + intros [[h|[h _]]|(b' & i & h)]; [left; exact h|right; exists b; split; [left; reflexivity|exact h]|right; exists b'; split; [right; exact i|exact h]].
        + intros [h|(b' & [<-|i] & h)]; [left; left; exact h| |right; eauto].
          destruct (in_dec string_dec x acc); [left; left; assumption|left; right; split; assumption]. }
    rewrite g, q. split.
    + intros [[h|h]|(b' & i & h)]; [left; exact h|right; exists b; split; [left; reflexivity|exact h]|right; exists b'; split; [right; exact i|exact h]].
    + intros [h|(b' & [<-|i] & h)]; [left; left; exact h|left; right; exact h|right; eauto].
Qed.
Theorem inherit_primary_keys : forall s bs,
  let k := build_tree (CDef s bs) in
  let declared := match at_pks s with Some l => l | None => sc_pks s end in
  (declared <> [] -> kl_pks k = declared) /\
  (declared = [] -> forall x, In x (kl_pks k) <-> exists b, In b bs /\ In x (kl_pks (build_tree b))) /\
  (kl_pks k <> [] -> exists l, dget "identityKeys" (kl_deps k) = Some l /\ forall x, In x l <-> In x (kl_pks k)).
Proof.
  intros s bs k declared. split; [|split].
  - intros h. subst k. cbn [build_tree build kl_pks]. unfold primary_keys. fold declared. destruct declared; [contradiction|reflexivity].
  - intros h x. subst k. cbn [build_tree build kl_pks]. unfold primary_keys. fold declared. rewrite h.
    rewrite (pks_bases (map build_tree bs) [] (NoDup_nil _)). split.
    + intros [[]|(b & i & hx)]. apply in_map_iff in i. destruct i as (b' & <- & i). eauto.
    + intros (b & i & hx). right. exists (build_tree b). split; [apply in_map; exact i|exact hx].
  - intros h. subst k. cbn [build_tree build kl_pks kl_deps] in *. destruct (primary_keys s (map build_tree bs)) as [|p ps]; [contradiction|].
    exists (dedup (p :: ps)). split; [apply dget_dset_same|]. intros x. apply dedup_In.
Qed.
Print Assumptions inherit_primary_keys.

(** * the names that can be assigned: declared names and aliases, without the read-only ones *)
Theorem allowed_names : forall t x,
  In x (kl_allowed (build_tree t)) <->
  ~ In x (kl_readonly (build_tree t)) /\
  (In x (dkeys (kl_props (build_tree t))) \/ In x (dkeys (kl_aliases (build_tree t))) \/ In x (dvals (kl_aliases (build_tree t))) \/
   In x (dkeys (kl_negated (build_tree t))) \/ In x (dvals (kl_negated (build_tree t)))).
Proof.
  intros [s bs] x. cbn [build_tree build kl_allowed kl_readonly kl_props kl_aliases kl_negated].
  rewrite filter_In, dedup_In, !in_app_iff, negb_true_iff, mem_not_In. tauto.
Qed.
Print Assumptions allowed_names.

(** * examples and deviations *)
Definition plain (props : dict string (nat * bool)) : schema := {|
  sc_required := None; sc_readonly := None; sc_notser := None; sc_notval := None; sc_props := props; sc_deps := []; sc_pks := [];
  sc_aliases := []; sc_negated := []; at_required := []; at_readonly := []; at_notser := []; at_notval := []; at_pks := None |}.
Definition with_required (r : list string) (d : dict string (list string)) (pk : list string) (s : schema) : schema := {|
  sc_required := Some r; sc_readonly := sc_readonly s; sc_notser := sc_notser s; sc_notval := sc_notval s; sc_props := sc_props s; sc_deps := d; sc_pks := pk;
  sc_aliases := sc_aliases s; sc_negated := sc_negated s; at_required := at_required s; at_readonly := at_readonly s; at_notser := at_notser s;
  at_notval := at_notval s; at_pks := at_pks s |}.
Definition person := CDef (with_required ["name"] [("label", ["name"])] ["id"] (plain [("name", (1, false)); ("id", (2, false)); ("label", (1, false))])) [].
Definition worker := CDef (with_required ["job"] [("label", ["job"])] [] (plain [("job", (3, true)); ("name", (4, false))])) [person].
Example inherit_case :
  kl_required (build_tree worker) = ["job"; "name"] /\ dget "name" (kl_props (build_tree worker)) = Some (4, false) /\
  dget "label" (kl_deps (build_tree worker)) = Some ["job"; "name"] /\ kl_pks (build_tree worker) = ["id"] /\
  dget identity_keys (kl_deps (build_tree worker)) = Some ["id"] /\ Inherits sc_props worker "id" (2, false).
Proof.
  repeat split. apply (inh_base sc_props _ [] person [] "id"); [reflexivity|intros ? ? []|]. constructor. reflexivity.
Qed.

(** a class that redefines a property without a default still counts it among the properties with a default *)
Theorem redefined_default_refuted : exists t p v,
  dget p (kl_props (build_tree t)) = Some v /\ snd v = false /\ In p (kl_default (build_tree t)).
Proof.
  exists (CDef (plain [("p", (1, false))]) [CDef (plain [("p", (1, true))]) []]), "p", (1, false).
  split; [reflexivity|]. split; [reflexivity|]. cbn. left. reflexivity.
Qed.
Print Assumptions redefined_default_refuted.
(** in a diamond, a redefinition in the second branch does not override the common ancestor's, although it comes before
    it in Python's method resolution order (D, B, C, A) *)
Theorem diamond_refuted : exists (a b c d : cdef) (sb sc sd : schema) p va vc,
  b = CDef sb [a] /\ c = CDef sc [a] /\ d = CDef sd [b; c] /\
  dget p (kl_props (build_tree a)) = Some va /\ dget p (sc_props sc) = Some vc /\ va <> vc /\
  dget p (sc_props sd) = None /\ dget p (sc_props sb) = None /\ dget p (kl_props (build_tree d)) = Some va.
Proof.
  set (a := CDef (plain [("p", (1, false))]) []). set (sc := plain [("p", (2, false))]).
  exists a, (CDef (plain []) [a]), (CDef sc [a]), (CDef (plain []) [CDef (plain []) [a]; CDef sc [a]]), (plain []), sc, (plain []), "p", (1, false), (2, false).
  repeat split. discriminate.
Qed.
Print Assumptions diamond_refuted.
(** a schema that gives "required" hides the class attribute _required *)
Theorem attribute_required_hidden_refuted : exists s, In "x" (at_required s) /\ ~ In "x" (kl_required (build_tree (CDef s []))).
Proof.
  exists {| sc_required := Some []; sc_readonly := None; sc_notser := None; sc_notval := None; sc_props := []; sc_deps := []; sc_pks := [];
    sc_aliases := []; sc_negated := []; at_required := ["x"]; at_readonly := []; at_notser := []; at_notval := []; at_pks := None |}.
  split; [left; reflexivity|]. cbn. tauto.
Qed.
Print Assumptions attribute_required_hidden_refuted.
