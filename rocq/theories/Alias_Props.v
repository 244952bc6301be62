(** Properties of aliases (C29). *)
From Coq Require Import Permutation.
From Verif Require Import Alias_Model Alias_Spec Alias_Proofs.
Local Open Scope string_scope.

(** deserialising gives each property what the mapping gives it under any of its names, and has no other entry *)
Theorem alias_deserialize_iff : forall n order d r,
  Separate n -> dwf d -> Permutation order (to_translate n d) -> alias_deserialize n order d = Ok r ->
  forall p v, dget p r = Some v <-> Gives n d p v.
Proof. intros n order d r S wf perm e p v. split; [eapply deserialize_given; eassumption|eapply deserialize_gives; eassumption]. Qed.
Print Assumptions alias_deserialize_iff.

(** it raises TypeError exactly when a negated alias has a value without opposite *)
Theorem alias_deserialize_fails : forall n order d,
  Separate n -> dwf d -> Permutation order (to_translate n d) ->
  (alias_deserialize n order d = Err TypeError <-> exists a p v, In (a, p) (nm_neg n) /\ dget a d = Some v /\ forall w, ~ Opposite v w) /\
  (forall x, alias_deserialize n order d = Err x -> x = TypeError).
Proof.
  intros n order d S wf perm. split; [split|].
  - intros e. destruct (deserialize_err n S order d _ wf perm e) as (_ & a & p & v & i & hv & hn). exists a, p, v. rewrite <- py_neg_err. auto.
  - intros (a & p & v & i & hv & hn). apply py_neg_err in hn. destruct (alias_deserialize n order d) as [r|x] eqn:e.
    + exfalso. unfold alias_deserialize in e. destruct (rename_aliases Ok (nm_alias n) (translate n order d)) as [v2|y] eqn:e2; [|discriminate].
      cbn [rbind] in e.
      assert (tga : forall a p, In (a, p) (nm_alias n) -> ~ other_name n p) by (intros b q j; apply (sep_target _ S b q); tauto).
      assert (tgn : forall a p, In (a, p) (nm_neg n) -> ~ other_name n p) by (intros b q j; apply (sep_target _ S b q); tauto).
      pose proof (rename_ok _ _ _ _ (sep_alias _ S) (sep_inj_a _ S) (fun a p i j => tga a p i (or_intror (or_introl j))) e2) as A.
      pose proof (rename_ok _ _ _ _ (sep_neg _ S) (sep_inj_n _ S) (fun a p i j => tgn a p i (or_intror (or_intror j))) e) as N.
      destruct (translate_gives n S order d wf perm) as (_ & _ & t3).
      destruct (rn_moved _ _ _ _ N a p v i) as (w & ew & _); [|congruence].
      rewrite <- hv. rewrite (rn_other _ _ _ _ A).
      * apply t3.
        -- intros [h1 h2]. destruct (sep_ta _ S a h1 h2) as [_ h]. apply h. eapply key_of; exact i.
        -- intros b ib. exfalso. apply (sep_target _ S b a (or_introl ib)). right. right. eapply key_of; exact i.
      * intros h. apply (sep_an _ S a h). eapply key_of; exact i.
      * intros b ib. exfalso. apply (tga b a ib). right. right. eapply key_of; exact i.
    + apply (deserialize_err n S order d x wf perm) in e. destruct e as [-> _]. reflexivity.
  - intros x e. apply (deserialize_err n S order d x wf perm) in e. tauto.
Qed.
Print Assumptions alias_deserialize_fails.

Lemma add_aliases_wf f only excludes t : forall d r, dwf d -> add_aliases f only excludes t d = Ok r -> dwf r.
Proof.
  induction t as [|[a p] t IH]; intros d r wf e; cbn [add_aliases] in e; [injection e as <-; exact wf|].
  destruct (_ || _); [eapply IH; eassumption|].
  destruct (dget p d) as [v|]; [|eapply IH; eassumption].
  assert (h : forall w, add_aliases f only excludes t (dset a w d) = Ok r -> dwf r) by (intros w ew; eapply IH; [apply dwf_dset; exact wf|exact ew]).
  destruct v; [eapply IH; eassumption|..]; (destruct (f _) as [w|]; [exact (h w e)|discriminate]).
Qed.

(** what is written: the items, and under each alias, if it is asked for, the value of its property unless it is None, with the
    opposite sign for a negated alias *)
Theorem alias_serialize_iff : forall n only excludes d s,
  Separate n -> (forall k, In k (dkeys d) -> ~ other_name n k) -> alias_serialize n only excludes d = Ok s ->
  forall k v, dget k s = Some v <->
    dget k d = Some v \/
    (exists p, In (k, p) (nm_alias n) /\ Written only excludes k /\ dget p d = Some v /\ v <> VNone) \/
    (exists p x, In (k, p) (nm_neg n) /\ Written only excludes k /\ dget p d = Some x /\ x <> VNone /\ Opposite x v).
Proof.
  intros n only excludes d s S hd es.
  assert (od : forall a, other_name n a -> dget a d = None) by (intros a ha; apply dget_None; intros i; exact (hd a i ha)).
  unfold alias_serialize in es. rewrite add_aliases_filter in es.
  destruct (add_aliases Ok [] [] (filter _ (nm_alias n)) d) as [s1|] eqn:e1; [|discriminate]. cbn [rbind] in es. rewrite add_aliases_filter in es.
  set (ta := filter (fun kp : string * string => written only excludes (fst kp)) (nm_alias n)) in *.
  set (tn := filter (fun kp : string * string => written only excludes (fst kp)) (nm_neg n)) in *.
  assert (fk : forall (t : dict string string) k, In k (dkeys (filter (fun kp => written only excludes (fst kp)) t)) -> In k (dkeys t)).
  { intros t k i. apply in_map_iff in i. destruct i as ([a b] & <- & i). apply filter_In in i. destruct i as [i _]. apply (in_map fst) in i. exact i. }
  assert (fw : forall t : dict string string, dwf t -> dwf (filter (fun kp => written only excludes (fst kp)) t)).
  { intros t. unfold dwf. induction t as [|[a b] t IH]; intros wf; [exact wf|]. inversion wf as [|? ? ni nd]; subst. cbn [filter fst].
    destruct (written only excludes a); [|apply IH; exact nd]. constructor; [intros i; apply ni, (fk t), i|apply IH; exact nd]. }
  assert (tga : forall a p, In (a, p) ta -> ~ other_name n p) by (intros a p i; apply filter_In in i; apply (sep_target _ S a p); tauto).
  assert (tgn : forall a p, In (a, p) tn -> ~ other_name n p) by (intros a p i; apply filter_In in i; apply (sep_target _ S a p); tauto).
  assert (ina : forall a p, In (a, p) ta <-> In (a, p) (nm_alias n) /\ Written only excludes a) by (intros a p; unfold ta; rewrite filter_In; cbn [fst]; rewrite written_spec; reflexivity).
  assert (inn : forall a p, In (a, p) tn <-> In (a, p) (nm_neg n) /\ Written only excludes a) by (intros a p; unfold tn; rewrite filter_In; cbn [fst]; rewrite written_spec; reflexivity).
  destruct (add_aliases_get Ok ta d s1 (fw _ (sep_alias _ S)) (fun a p i j => tga a p i (or_intror (or_introl (fk _ _ j)))) e1) as [A1 A2].
  destruct (add_aliases_get py_neg tn s1 s (fw _ (sep_neg _ S)) (fun a p i j => tgn a p i (or_intror (or_intror (fk _ _ j)))) es) as [N1 N2].
  intros k v.
  destruct (mem_spec EqDec_string k (dkeys tn)) as [ikn|nkn].
  - (* a negated alias *)
    assert (ok : other_name n k) by (right; right; apply fk; exact ikn). assert (kd := od k ok).
    apply in_map_iff in ikn. destruct ikn as ([k' p] & ek & i). cbn [fst] in ek. subst k'. specialize (N2 k p i).
    assert (np := tgn k p i). rewrite (A1 p) in N2 by (intros j; apply np; right; left; apply fk; exact j).
    assert (ks1 : dget k s1 = None).
    { rewrite A1; [exact kd|]. intros j. apply (sep_an _ S k (fk _ _ j)). apply inn in i. eapply key_of; apply i. }
    assert (only_p : forall q, In (k, q) (nm_neg n) -> q = p).
    { intros q iq. apply inn in i. destruct i as [i _]. apply (In_dget _ _ _ (sep_neg _ S)) in i, iq. congruence. }
    assert (noa : forall q, ~ In (k, q) (nm_alias n)).
    { intros q iq. apply (sep_an _ S k); [eapply key_of; exact iq|]. apply inn in i. eapply key_of; apply i. }
    assert (iw := proj1 (inn k p) i). split.
    + intros h. right. right. destruct (dget p d) as [x|] eqn:ep; [|congruence].
      destruct x; [congruence|..]; (destruct N2 as (w & ew & e2); rewrite e2 in h; injection h as <-; apply py_neg_spec in ew; exists p; eexists;
        split; [apply iw|split; [apply iw|split; [exact ep|split; [discriminate|exact ew]]]]).
    + intros [h|[(q & iq & _)|(q & x & iq & _ & hq & nx & ho)]]; [congruence|destruct (noa q iq)|].
      rewrite (only_p q iq) in hq. rewrite hq in N2. apply py_neg_spec in ho.
      destruct x; [congruence|..]; (destruct N2 as (w & ew & e2); congruence).
  - rewrite N1 by exact nkn.
    assert (non : forall q x, ~ (In (k, q) (nm_neg n) /\ Written only excludes k /\ dget q d = Some x /\ x <> VNone /\ Opposite x v)).
    { intros q x (i & hw & _). apply nkn. apply (key_of tn k q). apply inn. split; assumption. }
    destruct (mem_spec EqDec_string k (dkeys ta)) as [ika|nka].
    + assert (ok : other_name n k) by (right; left; apply fk; exact ika). assert (kd := od k ok).
      apply in_map_iff in ika. destruct ika as ([k' p] & ek & i). cbn [fst] in ek. subst k'. specialize (A2 k p i). assert (iw := proj1 (ina k p) i).
      split.
      * intros h. right. left. exists p. split; [apply iw|]. split; [apply iw|]. destruct (dget p d) as [x|]; [|congruence].
        destruct x; [congruence|..]; (destruct A2 as (w & ew & e2); rewrite e2 in h; injection h as <-; injection ew as <-; split; [reflexivity|discriminate]).
      * intros [h|[(q & iq & _ & hq & nv)|(q & x & hq)]]; [congruence| |destruct (non q x hq)].
        assert (q = p) by (destruct iw as [iw _]; apply (In_dget _ _ _ (sep_alias _ S)) in iw, iq; congruence). subst q.
        rewrite hq in A2. destruct v; [congruence|..]; (destruct A2 as (w & ew & e2); injection ew as <-; exact e2).
    + rewrite A1 by exact nka. split; [auto|]. intros [h|[(q & iq & hw & _)|(q & x & hq)]]; [exact h| |destruct (non q x hq)].
      exfalso. apply nka. apply (key_of ta k q). apply ina. split; assumption.
Qed.
Print Assumptions alias_serialize_iff.
Example alias_serialize_case :
  let n := {| nm_props := ["a"; "b"]; nm_trans := []; nm_alias := [("x", "a"); ("y", "b")]; nm_neg := [("m", "a")]; nm_additional := false; nm_clean := fun s => s |} in
  alias_serialize n [] ["y"] [("a", VInt 3); ("b", VInt 4)] = Ok [("a", VInt 3); ("b", VInt 4); ("x", VInt 3); ("m", VInt (-3))].
Proof. reflexivity. Qed.

(** serialising adds the aliases and deserialising takes them back *)
Theorem alias_round_trip : forall n order d s,
  Separate n -> dwf d -> (forall k, In k (dkeys d) -> ~ other_name n k) ->
  (forall a p, In (a, p) (nm_neg n) -> match dget p d with None | Some VNone | Some (VInt _) => True | _ => False end) ->
  alias_serialize n [] [] d = Ok s -> Permutation order (to_translate n s) ->
  exists r, alias_deserialize n order s = Ok r /\ forall p, dget p r = dget p d.
Proof.
  intros n order d s S wf hd hi es perm.
  assert (wfs : dwf s).
  { unfold alias_serialize in es. destruct (add_aliases Ok [] [] (nm_alias n) d) as [s1|] eqn:e1; [|discriminate].
    eapply add_aliases_wf; [eapply add_aliases_wf; eassumption|exact es]. }
  assert (od : forall a, other_name n a -> dget a d = None).
  { intros a ha. apply dget_None. intros i. exact (hd a i ha). }
  unfold alias_serialize in es. destruct (add_aliases Ok [] [] (nm_alias n) d) as [s1|] eqn:e1; [|discriminate]. cbn [rbind] in es.
  assert (tga : forall a p, In (a, p) (nm_alias n) -> ~ other_name n p) by (intros b q j; apply (sep_target _ S b q); tauto).
  assert (tgn : forall a p, In (a, p) (nm_neg n) -> ~ other_name n p) by (intros b q j; apply (sep_target _ S b q); tauto).
  destruct (add_aliases_get Ok (nm_alias n) d s1 (sep_alias _ S) (fun a p i j => tga a p i (or_intror (or_introl j))) e1) as [A1 A2].
  destruct (add_aliases_get py_neg (nm_neg n) s1 s (sep_neg _ S) (fun a p i j => tgn a p i (or_intror (or_intror j))) es) as [N1 N2].
  assert (own : forall p, ~ other_name n p -> dget p s = dget p d).
  { intros p np. rewrite N1 by (intros i; apply np; right; right; exact i). apply A1. intros i. apply np. right. left. exact i. }
  assert (sa : forall a p, In (a, p) (nm_alias n) -> dget a s = match dget p d with None | Some VNone => None | Some v => Some v end).
  { intros a p i. assert (oa : other_name n a) by (right; left; eapply key_of; exact i). rewrite N1.
    - specialize (A2 a p i). destruct (dget p d) as [[]|]; try (destruct A2 as (w & ew & ->); injection ew as <-; reflexivity); rewrite A2; apply od; exact oa.
    - intros j. apply (sep_an _ S a); [eapply key_of; exact i|exact j]. }
  assert (sn : forall a p, In (a, p) (nm_neg n) -> dget a s = match dget p d with Some (VInt z) => Some (VInt (- z)) | _ => None end).
  { intros a p i. assert (oa : other_name n a) by (right; right; eapply key_of; exact i). specialize (N2 a p i).
    rewrite (A1 p) in N2 by (intros j; apply (tgn a p i); right; left; exact j).
    assert (ea : dget a s1 = None).
    { rewrite A1; [apply od; exact oa|]. intros j. apply (sep_an _ S a j). eapply key_of; exact i. }
    specialize (hi a p i). destruct (dget p d) as [[]|]; try contradiction; try (rewrite N2; exact ea).
    destruct N2 as (w & ew & ->). injection ew as <-. reflexivity. }
  assert (st : forall a, In a (dkeys (nm_trans n)) -> ~ In a (nm_props n) -> dget a s = None).
  { intros a i np. destruct (sep_ta _ S a i np) as [h1 h2]. rewrite N1 by exact h2. rewrite A1 by exact h1. apply od. left. split; assumption. }
  assert (given : forall p v, dget p d = Some v -> Gives n s p v).
  { intros p v hv. assert (np : ~ other_name n p) by (apply hd; eapply dget_Some_key; exact hv).
    assert (ht : forall b, In (b, p) (nm_trans n) -> ~ In b (nm_props n) -> dget b s = None).
    { intros b ib nb. apply st; [eapply key_of; exact ib|exact nb]. }
    destruct (find_name (nm_neg n) s p (sep_inj_n _ S)) as [(a & x & i & hx)|hn].
    - rewrite (sn a p i), hv in hx. destruct v; try discriminate. injection hx as <-.
      eapply (gives_neg n s p a (VInt (- z)) (VInt z)); [exact i|rewrite (sn a p i), hv; reflexivity|]. constructor. lia.
    - destruct (find_name (nm_alias n) s p (sep_inj_a _ S)) as [(a & x & i & hx)|ha].
      + pose proof hx as hx'. rewrite (sa a p i), hv in hx'. assert (x = v) by (destruct v; congruence). subst x. eapply gives_alias; eassumption.
      + apply gives_own; [intros b [ib|ib]; auto|exact ht|exact np|rewrite own by exact np; exact hv]. }
  destruct (alias_deserialize n order s) as [r|x] eqn:er.
  - exists r. split; [reflexivity|]. intros p. destruct (dget p d) as [v|] eqn:ed.
    + apply (alias_deserialize_iff n order s r S wfs perm er p v). apply given. exact ed.
    + destruct (dget p r) as [v|] eqn:e; [|reflexivity]. exfalso.
      apply (alias_deserialize_iff n order s r S wfs perm er p v) in e.
      destruct e as [a v w i hv hw|a v hn i hv|a v hno i na hv|v hno ht np hv].
      * rewrite (sn a p i), ed in hv. discriminate.
      * rewrite (sa a p i), ed in hv. discriminate.
      * rewrite st in hv; [discriminate|eapply key_of; exact i|exact na].
      * rewrite own, ed in hv by exact np. discriminate.
  - exfalso. apply (deserialize_err n S order s x wfs perm) in er. destruct er as (_ & a & p & v & i & hv & hn).
    rewrite (sn a p i) in hv. destruct (dget p d) as [[]|]; try discriminate. injection hv as <-. discriminate.
Qed.
Print Assumptions alias_round_trip.

(** reading and writing items through an alias *)
Theorem alias_item_round_trip : forall n k p v d d',
  Separate n -> In (k, p) (nm_alias n) -> ~ In k (nm_props n) -> In p (nm_props n) ->
  (forall t r, In (t, r) (nm_trans n) -> r <> k) -> ~ In k (dkeys (nm_trans n)) ->
  alias_set n k v d = Ok d' -> d' = dset p v d /\ alias_get n k d' = Ok v.
Proof.
  intros n k p v d d' S i nk ip nr nt e. unfold alias_set in e.
  assert (rk : raw_trans n k = Some (p, k)).
  { unfold raw_trans. rewrite (proj2 (mem_not_In _ _ _) nk). destruct (find _ (nm_trans n)) as [[t r]|] eqn:ef.
    - apply find_some in ef. destruct ef as [it b]. cbn [fst snd] in b. apply orb_prop in b. destruct b as [b|b].
      + destruct (beq_spec EqDec_string k r) as [->|]; [|discriminate]. destruct (nr t r it eq_refl).
      + destruct (beq_spec EqDec_string k t) as [->|]; [|discriminate]. destruct nt. apply (in_map fst) in it. exact it.
    - rewrite (In_dget k p _ (sep_alias _ S) i). reflexivity. }
  unfold alias_set_by in e. rewrite rk, (proj2 (mem_In _ _ _) ip) in e.
  assert (kn : dget k (nm_neg n) = None) by (apply dget_None; apply (sep_an _ S); eapply key_of; exact i).
  unfold dmem in e. rewrite kn in e. cbn [rbind] in e. injection e as <-. split; [reflexivity|].
  assert (gk : get_key n k = p) by (unfold get_key, or_self; rewrite kn, (In_dget k p _ (sep_alias _ S) i); reflexivity).
  unfold alias_get, alias_get_by. rewrite gk.
  unfold raw_trans, dmem. rewrite (proj2 (mem_In _ _ _) ip), dget_dset_same, (proj2 (mem_In _ _ _) ip), dget_dset_same.
  assert (pn : dget p (nm_neg n) = None).
  { apply dget_None. intros j. apply (sep_target _ S k p (or_intror (or_introl i))). right. right. exact j. }
  rewrite pn. reflexivity.
Qed.
Print Assumptions alias_item_round_trip.

(** through a negated alias, what is read is the opposite of what was written *)
Theorem negated_alias_item_refuted : forall n k p z d d',
  Separate n -> In (k, p) (nm_neg n) -> ~ In k (nm_props n) -> In p (nm_props n) ->
  (forall t r, In (t, r) (nm_trans n) -> r <> k) -> ~ In k (dkeys (nm_trans n)) ->
  alias_set n k (VInt z) d = Ok d' -> d' = dset p (VInt (- z)) d /\ alias_get n k d' = Ok (VInt (- z)).
Proof.
  intros n k p z d d' S i nk ip nr nt e. unfold alias_set in e.
  assert (ka : dget k (nm_alias n) = None).
  { apply dget_None. intros j. apply (sep_an _ S k j). eapply key_of; exact i. }
  assert (rk : raw_trans n k = Some (p, k)).
  { unfold raw_trans. rewrite (proj2 (mem_not_In _ _ _) nk). destruct (find _ (nm_trans n)) as [[t r]|] eqn:ef.
    - apply find_some in ef. destruct ef as [it b]. cbn [fst snd] in b. apply orb_prop in b. destruct b as [b|b].
      + destruct (beq_spec EqDec_string k r) as [->|]; [|discriminate]. destruct (nr t r it eq_refl).
      + destruct (beq_spec EqDec_string k t) as [->|]; [|discriminate]. destruct nt. apply (in_map fst) in it. exact it.
    - rewrite ka, (In_dget k p _ (sep_neg _ S) i). reflexivity. }
  unfold alias_set_by in e. rewrite rk, (proj2 (mem_In _ _ _) ip) in e. unfold dmem in e. rewrite (In_dget k p _ (sep_neg _ S) i) in e. cbn [py_neg rbind] in e. injection e as <-.
  split; [reflexivity|].
  assert (np : ~ other_name n p) by (apply (sep_target _ S k p); right; right; exact i).
  assert (pa : dget p (nm_alias n) = None) by (apply dget_None; intros j; apply np; right; left; exact j).
  assert (pn : dget p (nm_neg n) = None) by (apply dget_None; intros j; apply np; right; right; exact j).
  assert (gk : get_key n k = p) by (unfold get_key, or_self; rewrite (In_dget k p _ (sep_neg _ S) i), pa; reflexivity).
  unfold alias_get, alias_get_by. rewrite gk.
  unfold raw_trans, dmem. rewrite (proj2 (mem_In _ _ _) ip), dget_dset_same, (proj2 (mem_In _ _ _) ip), dget_dset_same, pn. reflexivity.
Qed.
Print Assumptions negated_alias_item_refuted.

(** the type used for an alias is looked up under the alias itself, not under the property it stands for *)
Theorem alias_type_refuted : forall n k p, Separate n -> In (k, p) (nm_alias n) -> type_name n k = k /\ k <> p.
Proof.
  intros n k p S i. split.
  - unfold type_name, or_self. replace (dget k (nm_neg n)) with (@None string); [reflexivity|]. symmetry. apply dget_None. apply (sep_an _ S). eapply key_of; exact i.
  - intros ->. apply (sep_target _ S p p (or_intror (or_introl i))). right. left. eapply key_of; exact i.
Qed.
Print Assumptions alias_type_refuted.

(** A name that is neither a property nor another name for one is an item of its own when additional properties are allowed, and no item
    otherwise. A property without a value is no item. *)
Lemma find_trans n k : (forall t r, In (t, r) (nm_trans n) -> t <> k /\ r <> k) ->
  find (fun p => beq k (snd p) || beq k (fst p)) (nm_trans n) = None.
Proof.
  intros h. destruct (find _ (nm_trans n)) as [[t r]|] eqn:ef; [|reflexivity]. apply find_some in ef. destruct ef as [it b]. cbn [fst snd] in b.
  destruct (h t r it) as [h1 h2]. apply orb_prop in b. destruct b as [b|b]; apply beq_true in b; congruence.
Qed.
Theorem other_items : forall n k v d, ~ In k (nm_props n) -> ~ In k (dkeys (nm_alias n)) -> ~ In k (dkeys (nm_neg n)) ->
  (forall t r, In (t, r) (nm_trans n) -> t <> k /\ r <> k) ->
  if nm_additional n then alias_set n k v d = Ok (dset k v d) /\ alias_get n k (dset k v d) = Ok v
  else alias_set n k v d = Err KeyError /\ alias_get n k d = Err KeyError.
Proof.
  intros n k v d hp ha hn ht. pose proof (proj2 (dget_None _ _) ha) as ga. pose proof (proj2 (dget_None _ _) hn) as gn.
  assert (gk : get_key n k = k) by (unfold get_key, or_self; rewrite gn, ga; reflexivity).
  unfold alias_set, alias_get, alias_set_by, alias_get_by. rewrite gk. unfold raw_trans. rewrite (proj2 (mem_not_In _ _ _) hp), (find_trans n k ht), ga, gn.
  destruct (nm_additional n); [|split; reflexivity]. rewrite (proj2 (mem_not_In _ _ _) hp). unfold dmem. rewrite gn. cbn [rbind].
  rewrite dget_dset_same. split; reflexivity.
Qed.
Print Assumptions other_items.
Theorem missing_item : forall n p d, In p (nm_props n) -> ~ In p (dkeys (nm_alias n)) -> ~ In p (dkeys (nm_neg n)) ->
  (alias_get n p d = Err KeyError <-> ~ In p (dkeys d)) /\ (forall v, alias_get n p d = Ok v <-> dget p d = Some v).
Proof.
  intros n p d hp ha hn. pose proof (proj2 (dget_None _ _) ha) as ga. pose proof (proj2 (dget_None _ _) hn) as gn.
  assert (gk : get_key n p = p) by (unfold get_key, or_self; rewrite gn, ga; reflexivity).
  unfold alias_get, alias_get_by. rewrite gk. unfold raw_trans. rewrite (proj2 (mem_In _ _ _) hp), (proj2 (mem_In _ _ _) hp). unfold dmem. rewrite gn.
  rewrite <- dget_None. destruct (dget p d); split; try split; intros; congruence.
Qed.
Print Assumptions missing_item.
(** An alias of a negated alias reads the opposite of the property. *)
Theorem alias_of_negated : forall n a b p d v w, dget a (nm_alias n) = Some b -> ~ In a (dkeys (nm_neg n)) ->
  dget b (nm_neg n) = Some p -> In p (nm_props n) -> ~ In b (nm_props n) -> ~ In b (dkeys (nm_alias n)) -> (forall t r, In (t, r) (nm_trans n) -> t <> b /\ r <> b) ->
  dget p d = Some v -> (alias_get n a d = Ok w <-> Opposite v w).
Proof.
  intros n a b p d v w ga hn gb ip hp hb ht gp. rewrite <- py_neg_spec.
  assert (gk : get_key n a = b) by (unfold get_key, or_self; rewrite (proj2 (dget_None _ _) hn), ga; reflexivity).
  unfold alias_get, alias_get_by. rewrite gk.
  unfold raw_trans. rewrite (proj2 (mem_not_In _ _ _) hp), (find_trans n b ht), (proj2 (dget_None _ _) hb), gb. unfold dmem.
  rewrite gp, (proj2 (mem_In _ _ _) ip), gp, gb. reflexivity.
Qed.
Print Assumptions alias_of_negated.

(** a class meeting the hypotheses: "first-name" is translated to first_name, "surname" is an alias of "name", "debit" a
    negated alias of "credit" *)
Definition account : names := {|
  nm_props := ["name"; "credit"; "first-name"]; nm_trans := [("first_name", "first-name")];
  nm_alias := [("surname", "name")]; nm_neg := [("debit", "credit")]; nm_additional := false; nm_clean := fun s => s |}.
Example account_separate : Separate account.
Proof.
  assert (d : forall (x y : string), In x [y] -> x = y) by (intros x y [->|[]]; reflexivity).
  constructor; cbn.
  - constructor; [intros []|constructor].
  - constructor; [intros []|constructor].
  - constructor; [intros []|constructor].
  - intros k [<-|[]] _. split; intros [h|[]]; discriminate.
  - intros k [<-|[]] [h|[]]; discriminate.
  - intros k r h o. unfold other_name in o. cbn in o.
    destruct h as [[h|[]]|[[h|[]]|[h|[]]]]; injection h as <- <-;
      destruct o as [[[o|[]] _]|[[o|[]]|[o|[]]]]; discriminate.
  - intros k1 k2 r [h1|[]] [h2|[]]. congruence.
  - intros k1 k2 r [h1|[]] [h2|[]]. congruence.
  - intros k1 k2 r [h1|[]] [h2|[]]. congruence.
Qed.
Example account_case :
  alias_deserialize account ["first_name"] [("first_name", VStr "A"); ("surname", VStr "B"); ("debit", VInt 5); ("x", VNone)] =
    Ok [("x", VNone); ("first-name", VStr "A"); ("name", VStr "B"); ("credit", VInt (-5))] /\
  alias_serialize account [] [] [("name", VStr "B"); ("credit", VInt (-5))] =
    Ok [("name", VStr "B"); ("credit", VInt (-5)); ("surname", VStr "B"); ("debit", VInt 5)] /\
  (exists d', alias_set account "debit" (VInt 5) [("credit", VInt 0)] = Ok d' /\ alias_get account "debit" d' = Ok (VInt (-5))) /\
  Gives account [("debit", VInt 5); ("credit", VInt 3)] "credit" (VInt (-5)).
Proof.
  split; [reflexivity|]. split; [reflexivity|]. split; [eexists; split; reflexivity|].
  eapply (gives_neg account _ _ "debit" (VInt 5)); [left; reflexivity|reflexivity|constructor; reflexivity].
Qed.
Example other_cases : let bank b := {| nm_props := ["credit"]; nm_trans := []; nm_alias := [("owed", "debit")]; nm_neg := [("debit", "credit")]; nm_additional := b; nm_clean := fun s => s |} in
  alias_get (bank true) "owed" [("credit", VInt 3)] = Ok (VInt (-3)) /\ alias_set (bank true) "x" (VInt 1) [] = Ok [("x", VInt 1)] /\
  alias_set (bank false) "x" (VInt 1) [] = Err KeyError /\ alias_get (bank true) "credit" [] = Err KeyError.
Proof. repeat split. Qed.
