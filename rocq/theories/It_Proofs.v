(** Proofs about the types of the items of an object (C77). *)
From Verif Require Import Base It_Model It_Spec.
Local Open Scope list_scope.

Section It.
  Variable c : ocls.

  Definition decl (k : string) : option ty :=
    match dget k (oc_props c) with
    | Some t => Some t
    | None => match find (fun p => fst p k) (oc_patterns c) with
              | Some p => Some (snd p)
              | None => if ty_truth (oc_additional c) then Some (oc_additional c) else None
              end
    end.
  Definition tgt (k : string) : string := match dget k (oc_negated c) with Some i => i | None => k end.

  Lemma find_cut (k : string) l p : find (fun p : (string -> bool) * ty => fst p k) l = Some p ->
    exists l1 l2, l = l1 ++ p :: l2 /\ fst p k = true /\ forall g e, In (g, e) l1 -> g k = false.
  Proof.
    induction l as [|x l IH]; [discriminate|]. cbn [find]. destruct (fst x k) eqn:e.
    - injection 1 as <-. exists [], l. split; [reflexivity|]. split; [exact e|]. intros g f [].
    - intros h. destruct (IH h) as (l1 & l2 & -> & ep & hn). exists (x :: l1), l2. split; [reflexivity|]. split; [exact ep|].
      intros g f [->|i]; [exact e|exact (hn g f i)].
  Qed.
  Lemma no_entry k : (forall d', ~ In (k, d') (oc_props c)) -> dget k (oc_props c) = None.
  Proof. intros h. destruct (dget k (oc_props c)) eqn:e; [|reflexivity]. apply dget_In in e. destruct (h _ e). Qed.

  Lemma decl_spec : dwf (oc_props c) -> forall k d, Declared c k d <-> decl k = Some d.
  Proof.
    intros w k d. unfold decl. split.
    - intros [d' i|l1 f d' l2 hn ep ef h1|hn hp ht].
      + rewrite (In_dget _ _ _ w i). reflexivity.
      + rewrite (no_entry k hn), ep. clear ep. induction l1 as [|[g e] l1 IH]; cbn [app find fst].
        * rewrite ef. reflexivity.
        * rewrite (h1 g e (or_introl eq_refl)). apply IH. intros g' e' i. exact (h1 g' e' (or_intror i)).
      + rewrite (no_entry k hn). destruct (find _ (oc_patterns c)) as [[f e]|] eqn:ef; [|rewrite ht; reflexivity].
        apply find_some in ef. destruct ef as [i t]. cbn in t. rewrite (hp _ _ i) in t. discriminate.
    - destruct (dget k (oc_props c)) eqn:e; [injection 1 as <-; apply D_property, dget_In, e|].
      assert (hn : forall d', ~ In (k, d') (oc_props c)) by (intros d' i; rewrite (In_dget _ _ _ w i) in e; discriminate).
      destruct (find _ (oc_patterns c)) as [[f t]|] eqn:ef.
      + injection 1 as <-. destruct (find_cut _ _ _ ef) as (l1 & l2 & el & et & h1). eapply D_pattern; eassumption.
      + destruct (ty_truth (oc_additional c)) eqn:et; [|discriminate]. injection 1 as <-. apply D_additional; [exact hn| |exact et].
        intros f d' i. destruct (f k) eqn:efk; [|reflexivity]. exfalso. apply (find_none _ _ ef) in i. cbn in i. congruence.
  Qed.
  Lemma tgt_spec : dwf (oc_negated c) -> forall k i, Target c k i <-> tgt k = i.
  Proof.
    intros w k i. unfold tgt. split.
    - intros [hn|j ij]; [|rewrite (In_dget _ _ _ w ij); reflexivity].
      destruct (dget k (oc_negated c)) as [j|] eqn:e; [|reflexivity]. destruct (hn j (dget_In _ _ _ e)).
    - destruct (dget k (oc_negated c)) as [j|] eqn:e; intros <-; [apply T_negated, dget_In, e|].
      apply T_itself. intros j ij. rewrite (In_dget _ _ _ w ij) in e. discriminate.
  Qed.

  Definition targeted (k : string) : Prop := exists a, In (a, k) (oc_negated c).

  (** an entry of the cache *)
  Definition Entry (reg : types) (k : string) (t : ty) : Prop :=
    exists d, decl (tgt k) = Some d /\
      (t = d /\ (ty_stand d = None \/ targeted k) \/ exists u, ty_stand d = Some u /\ dget u reg = Some t).
  Definition CacheOk (reg : types) (st : cache) : Prop := forall k t, dget k st = Some (Some t) -> Entry reg k t.
  Definition RegOk (reg : types) : Prop := forall u p, dget u reg = Some p -> ty_stand p = None /\ ty_truth p = true.

  Hypothesis S : Sound c.

  Lemma tgt_tgt k : tgt (tgt k) = tgt k.
  Proof.
    destruct S as (_ & w & hn & _). unfold tgt at 2 3. destruct (dget k (oc_negated c)) as [i|] eqn:e; [|unfold tgt; rewrite e; reflexivity].
    unfold tgt. destruct (dget i (oc_negated c)) as [j|] eqn:ej; [|reflexivity]. apply dget_In in e, ej. destruct (hn _ _ _ e ej).
  Qed.
  Lemma entry_set reg st k t : CacheOk reg st -> Entry reg k t -> CacheOk reg (dset k (Some t) st).
  Proof.
    intros h he k' t' e. rewrite dget_dset in e. destruct (eq_dec k' k) as [->|]; [injection e as <-; exact he|exact (h _ _ e)].
  Qed.
  Lemma entry_clear reg st k : CacheOk reg st -> CacheOk reg (dset k None st).
  Proof. intros h k' t' e. rewrite dget_dset in e. destruct (eq_dec k' k) as [->|]; [discriminate|exact (h _ _ e)]. Qed.

  Lemma find_type_spec reg st i : RegOk reg -> CacheOk reg st -> tgt i = i ->
    match find_type c st i with
    | (Ok t, st1) => Entry reg i t /\ st1 = st \/ decl i = Some t /\ st1 = dset i (Some t) st
    | (Err e, st1) => e = KeyError /\ decl i = None /\ st1 = st
    end.
  Proof.
    intros R h ti. unfold find_type, decl.
    assert (D : match (match dget i (oc_props c) with
        | Some t => (Ok t, dset i (Some t) st)
        | None => match find (fun p => fst p i) (oc_patterns c) with
                  | Some p => (Ok (snd p), dset i (Some (snd p)) st)
                  | None => if ty_truth (oc_additional c) then (Ok (oc_additional c), dset i (Some (oc_additional c)) st) else (Err KeyError, st)
                  end
        end) with
      | (Ok t, st1) => decl i = Some t /\ st1 = dset i (Some t) st
      | (Err e, st1) => e = KeyError /\ decl i = None /\ st1 = st
      end).
    { unfold decl. destruct (dget i (oc_props c)); [auto|]. destruct (find _ (oc_patterns c)); [auto|]. destruct (ty_truth (oc_additional c)); auto. }
    fold (decl i). destruct (dget i st) as [[t|]|] eqn:e; [destruct (ty_truth t)|..]; [left; split; [apply h, e|reflexivity]| | |];
      (destruct (match dget i (oc_props c) with Some _ => _ | None => _ end) as [[t0|e0] st1]; [right; exact D|exact D]).
  Qed.

  Lemma item_type_spec reg st k : RegOk reg -> CacheOk reg st ->
    CacheOk reg (snd (item_type c reg st k)) /\
    match decl (tgt k) with
    | None => fst (item_type c reg st k) = Err KeyError
    | Some d => exists t, fst (item_type c reg st k) = Ok t /\
        (t = d /\ (ty_stand d = None \/ targeted k \/ exists u, ty_stand d = Some u /\ dget u reg = None) \/
         exists u, ty_stand d = Some u /\ dget u reg = Some t)
    end.
  Proof.
    intros R h. unfold item_type. fold (tgt k).
    assert (Hit : forall t, Entry reg k t -> match decl (tgt k) with
      | None => Ok t = Err KeyError
      | Some d => exists t0, Ok t = Ok t0 /\ (t0 = d /\ (ty_stand d = None \/ targeted k \/ exists u, ty_stand d = Some u /\ dget u reg = None) \/ exists u, ty_stand d = Some u /\ dget u reg = Some t0)
      end).
    { intros t (d & -> & H). exists t. split; [reflexivity|]. tauto. }
    assert (Miss : let r := (match find_type c st (tgt k) with
        | (Err e, st1) => (Err e, st1)
        | (Ok t, st1) =>
            let st2 := dset k (Some t) st1 in
            match (if ty_truth t then ty_stand t else None) with
            | None => (Ok t, st2)
            | Some u => match dget u reg with
                        | Some p => if ty_truth p then (Ok p, dset k (Some p) st2) else (Ok t, dset k None st2)
                        | None => (Ok t, dset k None st2)
                        end
            end
        end) in CacheOk reg (snd r) /\ match decl (tgt k) with
      | None => fst r = Err KeyError
      | Some d => exists t0, fst r = Ok t0 /\ (t0 = d /\ (ty_stand d = None \/ targeted k \/ exists u, ty_stand d = Some u /\ dget u reg = None) \/ exists u, ty_stand d = Some u /\ dget u reg = Some t0)
      end).
    { assert (F := find_type_spec reg st (tgt k) R h (tgt_tgt k)). destruct (find_type c st (tgt k)) as [[t|e] st1].
      2:{ destruct F as (-> & -> & ->). cbn [fst snd]. auto. }
      (* the entry found for the target, and its cache *)
      assert (T : exists d, decl (tgt k) = Some d /\ (t = d \/ exists u, ty_stand d = Some u /\ dget u reg = Some t) /\
                  (forall k' t', dget k' st1 = Some (Some t') -> k' = k \/ Entry reg k' t')).
      { destruct F as [[(d & ed & H) ->]|[ed ->]].
        - rewrite tgt_tgt in ed. exists d. split; [exact ed|]. split; [destruct H as [[H _]|H]; [left; exact H|right; exact H]|].
          intros k' t' e. right. apply h, e.
        - exists t. split; [exact ed|]. split; [left; reflexivity|]. intros k' t' e. rewrite dget_dset in e. destruct (eq_dec k' (tgt k)) as [->|ne].
          + injection e as <-. destruct (eq_dec (tgt k) k) as [eq|ne]; [left; exact eq|right].
            exists t. split; [rewrite tgt_tgt; exact ed|]. left. split; [reflexivity|]. right. exists k. unfold tgt in ne |- *.
            destruct (dget k (oc_negated c)) as [i|] eqn:ei; [apply dget_In, ei|congruence].
          + right. apply h, e. }
      destruct T as (d & ed & Ht & Hc). rewrite ed.
      assert (Sd : ty_stand d <> None -> ty_truth d = true).
      { destruct S as (w & _ & _ & s). intros ne. apply (s (tgt k)); [apply decl_spec; [exact w|exact ed]|exact ne]. }
      assert (Set1 : forall t0, Entry reg k t0 -> CacheOk reg (dset k (Some t0) (dset k (Some t) st1))).
      { intros t0 E k' t' e. rewrite !dget_dset in e. destruct (eq_dec k' k) as [->|ne]; [injection e as <-; exact E|].
        destruct (Hc _ _ e) as [->|E']; [congruence|exact E']. }
      assert (Set2 : Entry reg k t -> CacheOk reg (dset k (Some t) st1)).
      { intros E k' t' e. rewrite !dget_dset in e. destruct (eq_dec k' k) as [->|ne]; [injection e as <-; exact E|].
        destruct (Hc _ _ e) as [->|E']; [congruence|exact E']. }
      assert (Set3 : CacheOk reg (dset k None (dset k (Some t) st1))).
      { intros k' t' e. rewrite !dget_dset in e. destruct (eq_dec k' k) as [->|ne]; [discriminate|].
        destruct (Hc _ _ e) as [->|E']; [congruence|exact E']. }
      cbv zeta. destruct Ht as [->|(u & eu & et)].
      - destruct (ty_stand d) as [u|] eqn:eu.
        + rewrite (Sd ltac:(discriminate)). destruct (dget u reg) as [p|] eqn:er.
          * destruct (R _ _ er) as [_ ->]. cbn [fst snd]. split; [apply Set1; exists d; split; [exact ed|]; right; exists u; auto|].
            exists p. split; [reflexivity|]. right. exists u. auto.
          * cbn [fst snd]. split; [exact Set3|]. exists d. split; [reflexivity|]. left. split; [reflexivity|]. right. right. exists u. auto.
        + assert (E : Entry reg k d) by (exists d; split; [exact ed|]; left; auto).
          destruct (ty_truth d); cbn [fst snd]; (split; [exact (Set2 E)|exists d; auto]).
      - destruct (R _ _ et) as [es er]. rewrite es, er. cbn [fst snd].
        assert (E : Entry reg k t) by (exists d; split; [exact ed|]; right; exists u; auto).
        split; [exact (Set2 E)|]. exists t. split; [reflexivity|]. right. exists u. auto. }
    destruct (dget k st) as [[t|]|] eqn:e; [|exact Miss|exact Miss].
    cbn [fst snd]. split; [exact h|]. apply Hit, h, e.
  Qed.

  Lemma regular_app h1 h2 : Regular (h1 ++ h2) -> Regular h1.
  Proof.
    intros [a b]. split; [intros u p q i j; apply (a u); apply in_app_iff; left; assumption|]. intros u p i. apply (b u), in_app_iff. left. exact i.
  Qed.
  Lemma after_snoc h e : after c (h ++ [e]) = step c (after c h) e.
  Proof. unfold after. rewrite fold_left_app. reflexivity. Qed.
  Lemma after_ok h : Regular h ->
    (forall u p, dget u (snd (after c h)) = Some p <-> In (Register u p) h) /\ CacheOk (snd (after c h)) (fst (after c h)).
  Proof.
    induction h as [|e h IH] using rev_ind; intros r.
    - split; [split; [discriminate|intros []]|discriminate].
    - destruct (IH (regular_app _ _ r)) as [Hr Hc]. rewrite after_snoc. destruct e as [k|u t]; cbn [step fst snd].
      + split.
        * intros u p. rewrite Hr, in_app_iff. split; [auto|]. intros [i|[i|[]]]; [exact i|discriminate].
        * apply item_type_spec; [|exact Hc]. intros u p e. apply Hr in e. apply (proj2 r u), in_app_iff. left. exact e.
      + assert (old : forall p, In (Register u p) (h ++ [Register u t]) -> p = t).
        { intros p i. apply (proj1 r u); [exact i|]. apply in_app_iff. right. left. reflexivity. }
        split.
        * intros u' p. rewrite dget_dset, in_app_iff. destruct (eq_dec u' u) as [->|ne].
          -- split; [injection 1 as <-; right; left; reflexivity|]. intros i. f_equal. symmetry. apply old, in_app_iff. exact i.
          -- rewrite Hr. split; [auto|]. intros [i|[i|[]]]; [exact i|injection i as -> _; congruence].
        * intros k x e. destruct (Hc k x e) as (d & ed & [H|(v & ev & er)]); exists d; (split; [exact ed|]); [left; exact H|right].
          exists v. split; [exact ev|]. rewrite dget_dset. destruct (eq_dec v u) as [->|ne]; [|exact er].
          f_equal. symmetry. apply old, in_app_iff. left. apply Hr. exact er.
  Qed.
End It.
