From Verif Require Import Jv_Model Jv_Spec Cmp_Spec Cmp_Proofs.
Local Open Scope list_scope.

(** * induction *)
Definition Subs (P : jschema -> Prop) (k : jkw) : Prop :=
    match k with
    | KItems s | KRest s | KContains s | KMore s | KNames s | KNot s => P s
    | KItemsAt l | KAllOf l | KAnyOf l | KOneOf l => All P l
    | KProps l | KPats l | KDefs _ l | KNeeds _ l => All (fun p => P (snd p)) l
    | KIf c t e => P c /\ InOpt P t /\ InOpt P e
    | _ => True
    end.
Section Ind.
  Variable P : jschema -> Prop.
  Variable Q : jkw -> Prop.
  Hypothesis HBool : forall b, P (JBool b).
  Hypothesis HObj : forall l, All Q l -> P (JObj l).
  Hypothesis HK : forall k, Subs P k -> Q k.
  Fixpoint jschema_ind' (s : jschema) : P s :=
    match s with
    | JBool b => HBool b
    | JObj l => HObj l ((fix go (l : list jkw) : All Q l := match l with [] => I | k :: l' => conj (jkw_ind' k) (go l') end) l)
    end
  with jkw_ind' (k : jkw) : Q k :=
    let all := fix go (l : list jschema) : All P l := match l with [] => I | s :: l' => conj (jschema_ind' s) (go l') end in
    let alls := fix go (l : list (string * jschema)) : All (fun p => P (snd p)) l :=
      match l with [] => I | p :: l' => conj (jschema_ind' (snd p)) (go l') end in
    HK k
      (match k as k0 return Subs P k0 with
       | KItems s | KRest s | KContains s | KMore s | KNames s | KNot s => jschema_ind' s
       | KItemsAt l | KAllOf l | KAnyOf l | KOneOf l => all l
       | KProps l | KPats l | KDefs _ l | KNeeds _ l => alls l
       | KIf c t e => conj (jschema_ind' c) (conj (match t return InOpt P t with Some s => jschema_ind' s | None => I end)
                                                  (match e return InOpt P e with Some s => jschema_ind' s | None => I end))
       | _ => I
       end).
  Lemma jboth : (forall s, P s) /\ (forall k, Q k).
  Proof. split; [apply jschema_ind'|apply jkw_ind']. Qed.
End Ind.

(** * lists *)
Lemma All_iff {A} (P : A -> Prop) l : All P l <-> forall x, In x l -> P x.
Proof. induction l as [|a l IH]; cbn; [split; [intros _ x []|trivial]|rewrite IH; split; [intros [p q] x [<-|i]; auto|intros h; split; auto]]. Qed.
Lemma Any_iff {A} (P : A -> Prop) l : Any P l <-> exists x, In x l /\ P x.
Proof.
  induction l as [|a l IH]; cbn; [split; [intros []|intros (x & [] & _)]|].
  rewrite IH. split; [intros [p|(x & i & p)]; eauto|intros (x & [<-|i] & p); [left; exact p|right; eauto]].
Qed.
Lemma flat_map_nil {A B} (f : A -> list B) l : flat_map f l = [] <-> forall x, In x l -> f x = [].
Proof.
  induction l as [|a l IH]; cbn; [split; [intros _ x []|trivial]|]. split.
  - intros h. apply app_eq_nil in h. destruct h as [h1 h2]. intros x [<-|i]; [exact h1|exact (proj1 IH h2 x i)].
  - intros h. rewrite (h a (or_introl eq_refl)). apply IH. intros x i. apply h. right. exact i.
Qed.
Lemma map_nil {A B} (f : A -> B) l : map f l = [] <-> l = [].
Proof. destruct l; cbn; split; intros h; [reflexivity|reflexivity|discriminate|discriminate]. Qed.
Lemma fail_unless_nil b : fail_unless b = [] <-> b = true.
Proof. destruct b; cbn; split; intros h; try reflexivity; discriminate. Qed.
Lemma when_nil {A} (o : option A) f : when o f = [] <-> forall a, o = Some a -> f a = [].
Proof. destruct o as [a|]; cbn; split; intros h; [intros a' [= <-]; exact h|exact (h a eq_refl)|discriminate|reflexivity]. Qed.
Lemma none_true l : none l = true <-> l = [].
Proof. destruct l; cbn; split; intros h; try reflexivity; discriminate. Qed.
Lemma none_false l : none l = false <-> l <> [].
Proof. destruct l; cbn; split; intros h; try congruence; try discriminate. Qed.
Lemma indexed_nil {A} (f : nat -> A -> list path) l : forall i, indexed f i l = [] <-> forall j x, nth_error l j = Some x -> f (i + j) x = [].
Proof.
  induction l as [|a l IH]; intros i; cbn [indexed]; [split; [intros _ [|j] x; discriminate|trivial]|].
  split.
  - intros h. apply app_eq_nil in h. destruct h as [h1 h2]. intros [|j] x e; cbn in e.
    + inversion e; subst. rewrite Nat.add_0_r. exact h1.
    + rewrite <- plus_n_Sm. exact (proj1 (IH (S i)) h2 j x e).
  - intros h. pose proof (h 0 a eq_refl) as h0. rewrite Nat.add_0_r in h0. cbn [app].
    change (f i a ++ indexed f (S i) l = []). rewrite h0. cbn [app]. apply IH. intros j x e.
    specialize (h (S j) x e). rewrite <- plus_n_Sm in h. exact h.
Qed.
Lemma zipped_nil {A B} (f : nat -> A -> B -> list path) (Q : A -> B -> Prop) l : (forall i x y, In x l -> (f i x y = [] <-> Q x y)) ->
  forall i m, zipped f i l m = [] <-> Beside Q l m.
Proof.
  induction l as [|a l IH]; intros hf i [|b m]; cbn [zipped Beside]; try (split; [trivial|reflexivity]).
  change (f i a b ++ zipped f (S i) l m = [] <-> Q a b /\ Beside Q l m).
  rewrite <- (hf i a b (or_introl eq_refl)), <- (IH (fun i x y hi => hf i x y (or_intror hi)) (S i) m). split.
  - intros h. apply app_eq_nil in h. exact h.
  - intros [-> ->]. reflexivity.
Qed.
Lemma count_zero {A} (f : A -> list path) l : count_ok f l = 0 <-> forall x, In x l -> f x <> [].
Proof.
  induction l as [|a l IH]; cbn [count_ok]; [split; [intros _ x []|reflexivity]|].
  change ((if none (f a) then 1 else 0) + count_ok f l = 0 <-> forall x, In x (a :: l) -> f x <> []).
  destruct (none (f a)) eqn:e.
  - apply none_true in e. split; [discriminate|]. intros h. exfalso. exact (h a (or_introl eq_refl) e).
  - apply none_false in e. cbn [Nat.add]. rewrite IH. split; [intros h x [<-|i]; auto|intros h x i; apply h; right; exact i].
Qed.
Lemma count_one {A} (f : A -> list path) l : count_ok f l = 1 <-> One (fun x => f x = []) l.
Proof.
  induction l as [|a l IH]; cbn [count_ok One]; [split; [discriminate|intros []]|].
  change ((if none (f a) then 1 else 0) + count_ok f l = 1 <-> f a = [] /\ All (fun y => f y <> []) l \/ f a <> [] /\ One (fun x => f x = []) l).
  destruct (none (f a)) eqn:e.
  - apply none_true in e. rewrite All_iff, <- (count_zero f l). cbn [Nat.add]. split; [intros h; left; split; [exact e|injection h; trivial]|].
    intros [[_ h]|[n _]]; [rewrite h; reflexivity|contradiction].
  - apply none_false in e. cbn [Nat.add]. rewrite IH. split; [intros h; right; split; assumption|intros [[n _]|[_ h]]; [contradiction|exact h]].
Qed.
Lemma One_ext {A} (P Q : A -> Prop) l : (forall x, In x l -> (P x <-> Q x)) -> (One P l <-> One Q l).
Proof.
  induction l as [|a l IH]; cbn [One]; intros h; [reflexivity|].
  change (P a /\ All (fun y => ~ P y) l \/ ~ P a /\ One P l <-> Q a /\ All (fun y => ~ Q y) l \/ ~ Q a /\ One Q l).
  rewrite (IH (fun x i => h x (or_intror i))), (h a (or_introl eq_refl)).
  assert (e : All (fun y => ~ P y) l <-> All (fun y => ~ Q y) l).
  { rewrite !All_iff. split; intros k x i p; apply (k x i); apply (h x (or_intror i)); exact p. }
  rewrite e. reflexivity.
Qed.

(** * data *)
Lemma same_spec x y : same x y = true <-> SameData x y.
Proof.
  unfold SameData. rewrite <- val_eq_spec.
  destruct x, y; cbn [same];
    try (split; [intros h; split; [exact h|split; intros [b e]; discriminate e]|intros [h _]; exact h]);
    try (split; [discriminate|intros [_ [h1 h2]]; exfalso;
      first [destruct (h1 (ex_intro _ _ eq_refl)) as [? e]; discriminate e|destruct (h2 (ex_intro _ _ eq_refl)) as [? e]; discriminate e]]).
  destruct b, b0; (split; [intros h|intros [h _]; try reflexivity; discriminate h]); try discriminate h;
    (split; [reflexivity|split; intros _; eexists; reflexivity]).
Qed.
Lemma in_enum_spec v l : in_enum v l = true <-> exists c, In c l /\ SameData v c.
Proof.
  unfold in_enum. destruct (val_eq v (VInt 0) || val_eq v (VInt 1)) eqn:e.
  - rewrite existsb_exists. split; intros (c & i & h); exists c; (split; [exact i|]); apply same_spec; exact h.
  - rewrite existsb_exists. apply orb_false_iff in e. destruct e as [e0 e1]. split; intros (c & i & h); exists c; (split; [exact i|]).
    + split; [apply val_eq_spec; exact h|]. split; intros [b ->].
      * destruct b; cbn in e0, e1; discriminate.
      * exfalso. destruct v; try discriminate h; destruct b; try (destruct b0; cbn in e0, e1; discriminate);
          cbn in h, e0, e1; congruence.
    + apply val_eq_spec. exact (proj1 h).
Qed.
Lemma uniq_spec l : uniq l = true <-> Distinct l.
Proof.
  induction l as [|a l IH]; cbn [uniq].
  - split; [intros _ i j x y _ e; destruct i; discriminate e|reflexivity].
  - rewrite andb_true_iff, negb_true_iff, IH. split.
    + intros [h1 h2] i j x y lt ei ej sd. destruct i as [|i].
      * cbn in ei. injection ei as <-. destruct j as [|j]; [lia|]. cbn in ej. apply nth_error_In in ej.
        assert (t : existsb (same a) l = true) by (apply existsb_exists; exists y; split; [exact ej|apply same_spec; exact sd]).
        congruence.
      * destruct j as [|j]; [lia|]. cbn in ei, ej. exact (h2 i j x y ltac:(lia) ei ej sd).
    + intros h. split.
      * destruct (existsb (same a) l) eqn:e; [exfalso|reflexivity]. apply existsb_exists in e. destruct e as (y & i & s).
        apply In_nth_error in i. destruct i as [j ej]. apply (h 0 (S j) a y ltac:(lia) eq_refl ej). apply same_spec. exact s.
      * intros i j x y lt ei ej. exact (h (S i) (S j) x y ltac:(lia) ei ej).
Qed.

Section Search.
  Variable search : string -> string -> bool.
  Notation errors := (errors search).
  Notation kerrors := (kerrors search).
  Notation Sat := (Sat search program).
  Notation SatK := (SatK search program).

  Lemma extra_spec sibs k : extra search sibs k = true <-> Extra search sibs k.
  Proof.
    unfold extra, Extra, names_of, patterns_of. rewrite andb_true_iff, !negb_true_iff. split.
    - intros [h1 h2]. split.
      + intros p i hk. apply mem_not_In in h1. apply h1. apply in_flat_map. exists (KProps p). split; assumption.
      + intros p q i hq. destruct (search q k) eqn:e; [|reflexivity]. rewrite <- h2. symmetry. apply existsb_exists.
        exists q. split; [|exact e]. apply in_flat_map. exists (KPats p). split; assumption.
    - intros [h1 h2]. split.
      + apply mem_not_In. intros i. apply in_flat_map in i. destruct i as (y & iy & hy). destruct y; try contradiction. exact (h1 l iy hy).
      + destruct (existsb _ _) eqn:e; [exfalso|reflexivity]. apply existsb_exists in e. destruct e as (q & i & s).
        apply in_flat_map in i. destruct i as (y & iy & hy). destruct y; try contradiction. rewrite (h2 l q iy hy) in s. discriminate s.
  Qed.
  Lemma has_ref_spec l : has_ref l = true <-> exists u, In (KRef u) l.
  Proof.
    unfold has_ref. rewrite existsb_exists. split.
    - intros (k & i & h). destruct k; try discriminate h. exists u. exact i.
    - intros [u i]. exists (KRef u). split; [exact i|reflexivity].
  Qed.
  Lemma positions_spec l n : positions_of l = Some n <-> exists p, Positions l p /\ length p = n.
  Proof.
    unfold positions_of. induction l as [|k l IH]; cbn [flat_map].
    - split; [discriminate|]. intros (p & (a & b & e & _) & _). destruct a; discriminate e.
    - assert (other : (forall p, k <> KItemsAt p) ->
        ((exists p, Positions (k :: l) p /\ length p = n) <-> (exists p, Positions l p /\ length p = n))).
      { intros hk. split; intros (p & (a & b & e & h) & en); exists p; (split; [|exact en]).
        - destruct a as [|k' a]; cbn in e; injection e as e1 e2; [exfalso; exact (hk p e1)|].
          exists a, b. split; [exact e2|]. intros l' i. apply (h l'). right. exact i.
        - exists (k :: a), b. subst l. split; [reflexivity|]. intros l' [e'|i]; [exact (hk l' e')|exact (h l' i)]. }
      destruct k; cbn [app]; try (rewrite IH; symmetry; apply other; congruence).
      split.
      + intros [= <-]. exists l0. split; [|reflexivity]. exists [], l. split; [reflexivity|intros l' []].
      + intros (p & (a & b & e & h) & en). destruct a as [|k' a]; cbn in e.
        * inversion e; subst. reflexivity.
        * exfalso. apply (h l0). left. inversion e; subst. reflexivity.
  Qed.

  Lemma on_number v f (P : Z -> Prop) : (forall n, f n = [] <-> P n) -> (when (as_number v) f = [] <-> OnNumber program v P).
  Proof.
    intros h. unfold OnNumber, as_number. rewrite when_nil. replace (r_number program v) with (num_of v) by (destruct v; reflexivity).
    split; intros g n e; apply h; exact (g n e).
  Qed.
  Lemma on_array v f (P : list pyval -> Prop) : (forall n, f n = [] <-> P n) -> (when (as_array v) f = [] <-> OnArray program v P).
  Proof.
    intros h. unfold OnArray. rewrite when_nil. change (r_array program v) with (as_array v). split; intros g n e; apply h; exact (g n e).
  Qed.
  Lemma on_text v f (P : string -> Prop) : (forall n, f n = [] <-> P n) -> (when (as_text v) f = [] <-> OnText v P).
  Proof.
    intros h. unfold OnText. rewrite when_nil. split; intros g n e; apply h; apply g; [subst v; reflexivity|].
    destruct v; try discriminate e. injection e as ->. reflexivity.
  Qed.
  Lemma on_object v f (P : list (string * pyval) -> Prop) : (forall n, f n = [] <-> P n) -> (when (as_object v) f = [] <-> OnObject v P).
  Proof.
    intros h. unfold OnObject. rewrite when_nil. split; intros g n e; apply h; apply g; [subst v; reflexivity|].
    destruct v; try discriminate e. injection e as ->. reflexivity.
  Qed.
  Lemma nth_error_skipn' {A} (l : list A) : forall n i, nth_error (skipn n l) i = nth_error l (n + i).
  Proof. induction l as [|a l IH]; intros [|n] i; cbn; [destruct i; reflexivity|destruct i; reflexivity|reflexivity|apply IH]. Qed.
  Lemma props_nil l (d : list (string * pyval)) : All (fun p => forall v, errors (snd p) v = [] <-> Sat (snd p) v) l ->
    (flat_map (fun p => when (dget (fst p) d) (fun x => map (cons (inl (fst p))) (errors (snd p) x))) l = []
     <-> All (fun p => forall x, dget (fst p) d = Some x -> Sat (snd p) x) l).
  Proof.
    intros ih. rewrite flat_map_nil, !All_iff. rewrite All_iff in ih. split; intros h p i.
    - intros x e. apply (ih p i). specialize (h p i). rewrite when_nil in h. specialize (h x e). apply (map_nil (cons (inl (fst p)))). exact h.
    - apply when_nil. intros x e. apply map_nil. apply (ih p i). exact (h p i x e).
  Qed.

  (** no error exactly when the schema, read as the program does, says so *)
  Lemma errors_sat : (forall s, forall v, errors s v = [] <-> Sat s v) /\ (forall k, forall sibs v, kerrors sibs k v = [] <-> SatK sibs k v).
  Proof.
    apply jboth.
    - intros b v. cbn. apply fail_unless_nil.
    - intros l hl v. cbn [Jv_Model.errors Jv_Spec.Sat]. destruct (has_ref l) eqn:e.
      + apply has_ref_spec in e. split; [intros _; left; split; [reflexivity|exact e]|reflexivity].
      + rewrite flat_map_nil. rewrite All_iff in hl. split.
        * intros h. right. apply All_iff. intros k i. apply (hl k i). apply (map_nil (cons (inl (kname k)))). apply h. exact i.
        * intros [[_ r]|h]; [apply has_ref_spec in r; congruence|]. rewrite All_iff in h. intros k i. apply map_nil. apply (hl k i). exact (h k i).
    - intros k ih sibs v. destruct k; cbn [Subs] in ih; cbn [Jv_Model.kerrors Jv_Spec.SatK].
      all: try (split; trivial; fail).
      + rewrite fail_unless_nil. apply in_enum_spec.
      + rewrite fail_unless_nil. apply same_spec.
      + apply on_number. intros n. rewrite fail_unless_nil. apply Z.leb_le.
      + apply on_number. intros n. rewrite fail_unless_nil. apply Z.leb_le.
      + apply on_number. intros n. rewrite fail_unless_nil. apply Z.ltb_lt.
      + apply on_number. intros n. rewrite fail_unless_nil. apply Z.ltb_lt.
      + apply on_number. intros n. rewrite fail_unless_nil, Z.eqb_eq. destruct (Z.eq_dec z 0) as [->|nz].
        * rewrite Zmod_0_r. split; [intros ->; exists 0%Z; lia|intros [q ->]; lia].
        * rewrite (Z.mod_divide n z nz). split; intros [q ->]; exists q; lia.
      + apply on_text. intros t. rewrite fail_unless_nil. apply Nat.leb_le.
      + apply on_text. intros t. rewrite fail_unless_nil. apply Nat.leb_le.
      + apply on_text. intros t. apply fail_unless_nil.
      + apply on_array. intros a. rewrite fail_unless_nil. apply Nat.leb_le.
      + apply on_array. intros a. rewrite fail_unless_nil. apply Nat.leb_le.
      + apply on_array. intros a. rewrite fail_unless_nil, orb_true_iff, negb_true_iff, uniq_spec. destruct b; [|split; intros; auto; discriminate].
        split; [intros [h|h] _; [discriminate|exact h]|intros h; right; apply h; reflexivity].
      + apply on_array. intros a. rewrite flat_map_nil. split; intros h x i; apply ih; exact (h x i).
      + apply on_array. intros a. apply zipped_nil. intros i x y hi. rewrite map_nil. rewrite All_iff in ih. apply (ih x hi).
      + apply on_array. intros a. rewrite when_nil. split.
        * intros h l i x hp hl e. apply ih. assert (g := h (length l) (proj2 (positions_spec sibs (length l)) (ex_intro _ l (conj hp eq_refl)))).
          rewrite flat_map_nil in g. apply g. apply (nth_error_In _ (i - length l)). rewrite nth_error_skipn'.
          replace (length l + (i - length l)) with i by lia. exact e.
        * intros h n en. apply positions_spec in en. destruct en as (l & hp & <-). apply flat_map_nil. intros x hx. apply ih.
          apply In_nth_error in hx. destruct hx as [j e]. rewrite nth_error_skipn' in e. exact (h l (length l + j) x hp ltac:(lia) e).
      + apply on_array. intros a. rewrite fail_unless_nil, existsb_exists. split; intros (x & i & h); exists x; (split; [exact i|]).
        * apply ih. apply none_true. exact h.
        * apply none_true. apply ih. exact h.
      + apply on_object. intros d. apply props_nil. exact ih.
      + apply on_object. intros d. rewrite flat_map_nil, !All_iff. rewrite All_iff in ih. split.
        * intros h p i k x hx hs. apply (ih p i). specialize (h p i). rewrite flat_map_nil in h. specialize (h (k, x) hx). cbn [fst snd] in h.
          rewrite hs in h. apply (map_nil (cons (inl (fst p)))). exact h.
        * intros h p i. apply flat_map_nil. intros [k x] hx. cbn [fst snd]. destruct (search (fst p) k) eqn:e; [|reflexivity].
          apply map_nil. apply (ih p i). exact (h p i k x hx e).
      + apply on_object. intros d. rewrite flat_map_nil. split.
        * intros h k x hx he. apply ih. specialize (h (k, x) hx). cbn [fst snd] in h. apply extra_spec in he. rewrite he in h. exact h.
        * intros h [k x] hx. cbn [fst snd]. destruct (extra search sibs k) eqn:e; [|reflexivity]. apply ih. apply (h k x hx). apply extra_spec. exact e.
      + apply on_object. intros d. rewrite flat_map_nil. unfold Has. split.
        * intros h k hk. apply in_map_iff in hk. destruct hk as ([k' x] & <- & i). apply ih. exact (h (k', x) i).
        * intros h [k x] i. apply ih. apply h. apply in_map_iff. exists (k, x). split; [reflexivity|exact i].
      + split; [intros h _|intros h; specialize (h eq_refl)]; revert h; apply on_object; intros d; apply props_nil; exact ih.
      + apply on_object. intros d. rewrite flat_map_nil. split; intros h k i; specialize (h k i).
        * rewrite fail_unless_nil in h. apply dmem_In in h. exact h.
        * apply fail_unless_nil. apply dmem_In. exact h.
      + apply on_object. intros d. rewrite fail_unless_nil. apply Nat.leb_le.
      + apply on_object. intros d. rewrite fail_unless_nil. apply Nat.leb_le.
      + apply on_object. intros d. rewrite All_iff in ih. split.
        * intros h. apply app_eq_nil in h. destruct h as [h1 h2]. rewrite flat_map_nil in h1. rewrite flat_map_nil in h2. split.
          -- intros k ns i hk x hx. specialize (h1 (k, ns) i). cbn [fst snd] in h1. apply dmem_In in hk. rewrite hk in h1.
             rewrite flat_map_nil in h1. specialize (h1 x hx). rewrite fail_unless_nil in h1. apply dmem_In in h1. exact h1.
          -- apply All_iff. intros p i hk. specialize (h2 p i). apply dmem_In in hk. rewrite hk in h2. apply (ih p i).
             apply (map_nil (cons (inl (fst p)))). exact h2.
        * intros [h1 h2]. rewrite All_iff in h2.
          assert (e1 : forall a b : list path, a = [] -> b = [] -> a ++ b = []) by (intros a b -> ->; reflexivity).
          apply e1; apply flat_map_nil.
          -- intros [k ns] i. cbn [fst snd]. destruct (dmem k d) eqn:e; [|reflexivity]. apply flat_map_nil. intros x hx. apply fail_unless_nil.
             apply dmem_In. apply dmem_In in e. exact (h1 k ns i e x hx).
          -- intros p i. destruct (dmem (fst p) d) eqn:e; [|reflexivity]. apply map_nil. apply (ih p i). apply (h2 p i). apply dmem_In in e. exact e.
      + rewrite indexed_nil, All_iff. rewrite All_iff in ih. split.
        * intros h s i. apply (ih s i). apply In_nth_error in i. destruct i as [j e]. apply (map_nil (cons (inr (0 + j)))). exact (h j s e).
        * intros h j s e. apply map_nil. apply nth_error_In in e. apply (ih s e). exact (h s e).
      + rewrite fail_unless_nil, negb_true_iff, Nat.eqb_neq, Any_iff. rewrite All_iff in ih. split.
        * intros h. destruct (existsb (fun s => none (errors s v)) l) eqn:e.
          -- apply existsb_exists in e. destruct e as (s & i & n). exists s. split; [exact i|]. apply (ih s i). apply none_true. exact n.
          -- exfalso. apply h. apply count_zero. intros s i n. assert (t : existsb (fun s => none (errors s v)) l = true); [|congruence].
             apply existsb_exists. exists s. split; [exact i|]. apply none_true. exact n.
        * intros (s & i & hs) h. rewrite count_zero in h. apply (h s i). apply (ih s i). exact hs.
      + rewrite fail_unless_nil, Nat.eqb_eq, count_one. apply One_ext. rewrite All_iff in ih. intros s i. apply (ih s i).
      + rewrite fail_unless_nil, negb_true_iff, none_false. rewrite (ih v). reflexivity.
      + destruct ih as (ic & it & ie).
        match goal with |- _ <-> ?r => change ((if none (errors c v)
          then match t with Some s => map (cons (inl "then"%string)) (errors s v) | None => [] end
          else match e with Some s => map (cons (inl "else"%string)) (errors s v) | None => [] end) = [] <-> r) end.
        destruct (none (errors c v)) eqn:en.
        * apply none_true, ic in en. split.
          -- intros h. split; [intros _|contradiction]. destruct t as [s|]; [|exact I]. cbn [InOpt] in it. apply it. apply (map_nil (cons (inl "then"%string))). exact h.
          -- intros [h _]. specialize (h en). destruct t as [s|]; [|reflexivity]. cbn [InOpt] in it. apply map_nil. apply it. exact h.
        * apply none_false in en. rewrite (ic v) in en. split.
          -- intros h. split; [contradiction|intros _]. destruct e as [s|]; [|exact I]. cbn [InOpt] in ie. apply ie. apply (map_nil (cons (inl "else"%string))). exact h.
          -- intros [_ h]. specialize (h en). destruct e as [s|]; [|reflexivity]. cbn [InOpt] in ie. apply map_nil. apply ie. exact h.
  Qed.

  (** * paths *)
  Definition Named (p : path) : Prop := forall x, In x p -> exists n, x = inl n.
  Definition AllNamed (l : list path) : Prop := forall p, In p l -> Named p.
  Lemma an_nil : AllNamed [].
  Proof. intros p []. Qed.
  Lemma an_fail b : AllNamed (fail_unless b).
  Proof. destruct b; intros p hp; cbn in hp; [destruct hp|destruct hp as [<-|[]]; intros x []]. Qed.
  Lemma an_app a b : AllNamed a -> AllNamed b -> AllNamed (a ++ b).
  Proof. intros ha hb p hp. apply in_app_or in hp. destruct hp; auto. Qed.
  Lemma an_flat {A} (f : A -> list path) l : (forall x, In x l -> AllNamed (f x)) -> AllNamed (flat_map f l).
  Proof. intros h p hp. apply in_flat_map in hp. destruct hp as (x & i & hp). exact (h x i p hp). Qed.
  Lemma an_cons n l : AllNamed l -> AllNamed (map (cons (inl n)) l).
  Proof. intros h p hp. apply in_map_iff in hp. destruct hp as (q & <- & i). intros x [<-|hx]; [exists n; reflexivity|exact (h q i x hx)]. Qed.
  Lemma an_when {A} (o : option A) f : (forall a, AllNamed (f a)) -> AllNamed (when o f).
  Proof. intros h. destruct o; [apply h|apply an_nil]. Qed.

  Lemma pathless_named : (forall s, Pathless s -> forall v, AllNamed (errors s v)) /\ (forall k, PathlessK k -> forall sibs v, AllNamed (kerrors sibs k v)).
  Proof.
    apply jboth.
    - intros b _ v. apply an_fail.
    - intros l hl hp v. cbn [Jv_Model.errors]. destruct (has_ref l); [apply an_nil|]. apply an_flat. intros k i. apply an_cons.
      rewrite All_iff in hl. cbn [Pathless] in hp. rewrite All_iff in hp. exact (hl k i (hp k i) l v).
    - intros k ih hp sibs v. destruct k; cbn [Subs] in ih; cbn [PathlessK] in hp; cbn [Jv_Model.kerrors]; try contradiction.
      all: try apply an_nil; try apply an_fail; try (apply an_when; intros w; try apply an_fail).
      + apply an_flat. intros x _. apply (ih hp).
      + apply an_when. intros n. apply an_flat. intros x _. apply (ih hp).
      + rewrite All_iff in ih, hp. apply an_flat. intros p i. apply an_when. intros x. apply an_cons. apply (ih p i (hp p i)).
      + rewrite All_iff in ih, hp. apply an_flat. intros p i. apply an_flat. intros e _. destruct (search (fst p) (fst e)); [|apply an_nil].
        apply an_cons. apply (ih p i (hp p i)).
      + apply an_flat. intros e _. destruct (extra search sibs (fst e)); [apply (ih hp)|apply an_nil].
      + apply an_flat. intros e _. apply (ih hp).
      + rewrite All_iff in ih, hp. apply an_flat. intros p i. apply an_when. intros x. apply an_cons. apply (ih p i (hp p i)).
      + apply an_flat. intros e _. apply an_fail.
      + rewrite All_iff in ih, hp. apply an_app.
        * apply an_flat. intros p i. destruct (dmem (fst p) w); [|apply an_nil]. apply an_flat. intros n _. apply an_fail.
        * apply an_flat. intros p i. destruct (dmem (fst p) w); [|apply an_nil]. apply an_cons. apply (ih p i (hp p i)).
      + destruct ih as (_ & it & ie). destruct hp as [ht he].
        match goal with |- AllNamed ?r => change (AllNamed (if none (errors c v)
          then match t with Some s => map (cons (inl "then"%string)) (errors s v) | None => [] end
          else match e with Some s => map (cons (inl "else"%string)) (errors s v) | None => [] end)) end.
        destruct (none (errors c v)); [destruct t as [s|]|destruct e as [s|]]; cbn [InOpt] in it, ie, ht, he;
          try apply an_nil; apply an_cons; [apply (it ht)|apply (ie he)].
  Qed.

  Lemma join_ok p : Named p <-> exists r, join_path p = Ok r.
  Proof.
    induction p as [|x p IH]; cbn [join_path]; [split; [intros _; eexists; reflexivity|intros _ x []]|]. destruct x as [n|i].
    - split.
      + intros h. destruct (proj1 IH (fun y hy => h y (or_intror hy))) as [r e]. rewrite e. cbn. eexists. reflexivity.
      + intros [r e]. destruct (join_path p) as [q|x] eqn:ep; [|discriminate e]. intros y [<-|hy]; [exists n; reflexivity|].
        exact (proj2 IH (ex_intro _ q eq_refl) y hy).
    - split; [intros h; destruct (h (inr i) (or_introl eq_refl)) as [n e]; discriminate e|intros [r e]; discriminate e].
  Qed.
  Lemma join_path_spec p r : join_path p = Ok r -> p = map inl r.
  Proof.
    revert r. induction p as [|[n|i] p IH]; intros r e; cbn [join_path] in e; try discriminate e; [injection e as <-; reflexivity|].
    destruct (join_path p) as [q|x] eqn:ep; [|discriminate e]. cbn in e. injection e as <-. cbn. rewrite (IH q eq_refl). reflexivity.
  Qed.
  Lemma join_paths_spec l : match join_paths l with Ok r => l = map (map inl) r | Err e => e = TypeError /\ exists p, In p l /\ ~ Named p end.
  Proof.
    induction l as [|p l IH]; cbn [join_paths]; [reflexivity|].
    destruct (join_path p) as [q|x] eqn:ep; cbn [rbind].
    - destruct (join_paths l) as [r|x]; cbn [rbind].
      + cbn [map]. rewrite (join_path_spec p q ep), IH. reflexivity.
      + destruct IH as (-> & p' & i & n). split; [reflexivity|]. exists p'. split; [right; exact i|exact n].
    - split; [|exists p; split; [left; reflexivity|intros n; apply join_ok in n; destruct n; congruence]].
      clear -ep. revert x ep. induction p as [|[n|i] p IH]; intros x ep; cbn [join_path] in ep; try discriminate ep; [|injection ep as <-; reflexivity].
      destruct (join_path p) as [q|y]; [discriminate ep|]. cbn in ep. injection ep as <-. apply IH. reflexivity.
  Qed.
  Lemma join_paths_ok l : AllNamed l -> exists r, join_paths l = Ok r.
  Proof.
    intros h. pose proof (join_paths_spec l) as g. destruct (join_paths l) as [r|x]; [exists r; reflexivity|].
    destruct g as (_ & p & i & n). destruct (n (h p i)).
  Qed.
  Lemma join_paths_nil l : join_paths l = Ok [] <-> l = [].
  Proof.
    split; [|intros ->; reflexivity]. intros e. pose proof (join_paths_spec l) as g. rewrite e in g. exact g.
  Qed.
End Search.

(** * agreement of the readings *)
Section Agree.
  Variable search : string -> string -> bool.
  Variable target : string -> pyval -> Prop.
  Notation Std := (Sat search (standard target)).
  Notation StdK := (SatK search (standard target)).
  Notation Prg := (Sat search program).
  Notation PrgK := (SatK search program).

  Definition Agreeing (E : (jkw -> Prop) -> Prop) (v : pyval) : Prop :=
    E untyped /\ (E array_free \/ TextFree v /\ E names_free) /\ (E number_free \/ BoolFree v).

  Lemma text_free_sub v x : (forall w, Within w x -> Within w v) -> TextFree v -> TextFree x.
  Proof. intros h t s i. exact (t s (h _ i)). Qed.
  Lemma bool_free_sub v x : (forall w, Within w x -> Within w v) -> BoolFree v -> BoolFree x.
  Proof. intros h t s i. exact (t s (h _ i)). Qed.
  Lemma agreeing_sub (E E' : (jkw -> Prop) -> Prop) v x : (forall P, E P -> E' P) -> (forall w, Within w x -> Within w v) -> Agreeing E v -> Agreeing E' x.
  Proof.
    intros hE hw (a & b & c). split; [exact (hE _ a)|]. split.
    - destruct b as [b|[b1 b2]]; [left; exact (hE _ b)|right; split; [exact (text_free_sub v x hw b1)|exact (hE _ b2)]].
    - destruct c as [c|c]; [left; exact (hE _ c)|right; exact (bool_free_sub v x hw c)].
  Qed.
  Lemma agreeing_name (E E' : (jkw -> Prop) -> Prop) v n : (forall P, E P -> E' P) -> (E names_free -> False) -> Agreeing E v -> Agreeing E' (VStr n).
  Proof.
    intros hE hn (a & b & c). split; [exact (hE _ a)|]. split.
    - destruct b as [b|[_ b]]; [left; exact (hE _ b)|destruct (hn b)].
    - right. intros b' w. inversion w.
  Qed.
  Lemma arrays_agree E v : Agreeing E v -> (E array_free -> False) -> r_array (standard target) v = r_array program v.
  Proof.
    intros (_ & [b|[b _]] & _) h; [destruct (h b)|]. destruct v; try reflexivity. destruct (b s (wi_self _)).
  Qed.
  Lemma numbers_agree E v : Agreeing E v -> (E number_free -> False) -> r_number (standard target) v = r_number program v.
  Proof.
    intros (_ & _ & [b|b]) h; [destruct (h b)|]. destruct v; try reflexivity. destruct (b b0 (wi_self _)).
  Qed.
  Lemma on_array_ext E v (P Q : list pyval -> Prop) : Agreeing E v -> (E array_free -> False) -> (forall a, v = VList a -> (P a <-> Q a)) ->
    (OnArray (standard target) v P <-> OnArray program v Q).
  Proof.
    intros ha he h. unfold OnArray. rewrite <- (arrays_agree E v ha he).
    split; intros g a e; (assert (ev : v = VList a) by (destruct v; try discriminate e; injection e as ->; reflexivity)); apply (h a ev); exact (g a e).
  Qed.
  Lemma on_object_ext v (P Q : list (string * pyval) -> Prop) : (forall d, v = VDict d -> (P d <-> Q d)) -> (OnObject v P <-> OnObject v Q).
  Proof. intros h. unfold OnObject. split; intros g d e; apply (h d e); exact (g d e). Qed.
  Lemma beside_ext {A B} (P Q : A -> B -> Prop) l : forall m, (forall x y, In x l -> In y m -> (P x y <-> Q x y)) -> (Beside P l m <-> Beside Q l m).
  Proof.
    induction l as [|a l IH]; intros [|b m] h; cbn [Beside]; try reflexivity.
    change (P a b /\ Beside P l m <-> Q a b /\ Beside Q l m).
    rewrite (h a b (or_introl eq_refl) (or_introl eq_refl)), (IH m (fun x y i j => h x y (or_intror i) (or_intror j))). reflexivity.
  Qed.

  Lemma agree : (forall s, forall v, Agreeing (fun P => Every P s) v -> (Std s v <-> Prg s v))
    /\ (forall k, forall sibs v, Agreeing (fun P => EveryK P k) v -> (StdK sibs k v <-> PrgK sibs k v)).
  Proof.
    apply jboth.
    - intros b v _. reflexivity.
    - intros l hl v hv. cbn [Sat]. rewrite All_iff in hl.
      assert (nr : ~ exists u, In (KRef u) l).
      { intros [u i]. destruct hv as (a & _). cbn [Every] in a. rewrite All_iff in a. exact (proj1 (a _ i)). }
      rewrite !All_iff.
      assert (each : forall k, In k l -> (StdK l k v <-> PrgK l k v)).
      { intros k i. apply (hl k i). revert hv. apply agreeing_sub; [|trivial]. intros P h. cbn [Every] in h. rewrite All_iff in h. exact (h k i). }
      split; (intros [[_ r]|h]; [contradiction|right; intros k i; apply (each k i); exact (h k i)]).
    - intros k ih sibs v hv. destruct k; cbn [Subs] in ih; cbn [SatK]; try reflexivity.
      1, 2: exfalso; exact (proj1 (proj1 hv)).
      1-5: unfold OnNumber; rewrite (numbers_agree _ v hv); [reflexivity|intros h; exact (proj1 h)].
      1-3: unfold OnArray; rewrite (arrays_agree _ v hv); [reflexivity|intros h; exact (proj1 h)].
      + apply (on_array_ext (fun P => EveryK P (KItems s)) v _ _ hv); [intros h; exact (proj1 h)|]. intros a ->.
        split; intros h x i; (apply (ih x); [revert hv; apply agreeing_sub; [intros P g; exact (proj2 g)|intros w hw; exact (wi_list x a w i hw)]|exact (h x i)]).
      + apply (on_array_ext (fun P => EveryK P (KItemsAt l)) v _ _ hv); [intros h; exact (proj1 h)|]. intros a ->. rewrite All_iff in ih.
        apply beside_ext. intros x y ix iy. apply (ih x ix). revert hv. apply agreeing_sub; [|intros w hw; exact (wi_list y a w iy hw)].
        intros P g. cbn [EveryK] in g. destruct g as [_ g]. rewrite All_iff in g. exact (g x ix).
      + apply (on_array_ext (fun P => EveryK P (KRest s)) v _ _ hv); [intros h; exact (proj1 h)|]. intros a ->.
        split; intros h l i x p le e; (apply (ih x); [revert hv; apply agreeing_sub; [intros P g; exact (proj2 g)|intros w hw; exact (wi_list x a w (nth_error_In _ _ e) hw)]|exact (h l i x p le e)]).
      + apply (on_array_ext (fun P => EveryK P (KContains s)) v _ _ hv); [intros h; exact (proj1 h)|]. intros a ->.
        split; intros (x & i & h); exists x; (split; [exact i|]); (apply (ih x); [revert hv; apply agreeing_sub; [intros P g; exact (proj2 g)|intros w hw; exact (wi_list x a w i hw)]|exact h]).
      + apply on_object_ext. intros d ->. rewrite !All_iff. rewrite All_iff in ih.
        split; intros h p i x e; (apply (ih p i x); [revert hv; apply agreeing_sub; [|intros w hw; exact (wi_dict (fst p) x d w (dget_In _ _ _ e) hw)]|exact (h p i x e)]).
        all: intros P g; cbn [EveryK] in g; destruct g as [_ g]; rewrite All_iff in g; exact (g p i).
      + apply on_object_ext. intros d ->. rewrite !All_iff. rewrite All_iff in ih.
        split; intros h p i k x e m; (apply (ih p i x); [revert hv; apply agreeing_sub; [|intros w hw; exact (wi_dict k x d w e hw)]|exact (h p i k x e m)]).
        all: intros P g; cbn [EveryK] in g; destruct g as [_ g]; rewrite All_iff in g; exact (g p i).
      + apply on_object_ext. intros d ->.
        split; intros h k x e m; (apply (ih x); [revert hv; apply agreeing_sub; [intros P g; exact (proj2 g)|intros w hw; exact (wi_dict k x d w e hw)]|exact (h k x e m)]).
      + apply on_object_ext. intros d ->.
        split; intros h k e; (apply (ih (VStr k)); [revert hv; apply agreeing_name; [intros P g; exact (proj2 g)|intros g; exact (proj1 g)]|exact (h k e)]).
      + exfalso. exact (proj1 (proj1 hv)).
      + apply on_object_ext. intros d ->. rewrite !All_iff. rewrite All_iff in ih.
        split; intros [h1 h]; (split; [exact h1|]); intros p i hk; (apply (ih p i); [revert hv; apply agreeing_sub; [|trivial]|exact (h p i hk)]).
        all: intros P g; cbn [EveryK] in g; destruct g as [_ g]; rewrite All_iff in g; exact (g p i).
      + rewrite !All_iff. rewrite All_iff in ih.
        split; intros h s i; (apply (ih s i); [revert hv; apply agreeing_sub; [|trivial]|exact (h s i)]).
        all: intros P g; cbn [EveryK] in g; destruct g as [_ g]; rewrite All_iff in g; exact (g s i).
      + rewrite !Any_iff. rewrite All_iff in ih.
        split; intros (s & i & h); exists s; (split; [exact i|]); (apply (ih s i); [revert hv; apply agreeing_sub; [|trivial]|exact h]).
        all: intros P g; cbn [EveryK] in g; destruct g as [_ g]; rewrite All_iff in g; exact (g s i).
      + rewrite All_iff in ih. apply One_ext. intros s i. apply (ih s i). revert hv. apply agreeing_sub; [|trivial].
        intros P g; cbn [EveryK] in g; destruct g as [_ g]; rewrite All_iff in g; exact (g s i).
      + rewrite (ih v); [reflexivity|]. revert hv. apply agreeing_sub; [intros P g; exact (proj2 g)|trivial].
      + destruct ih as (ic & it & ie).
        assert (ec : Std c v <-> Prg c v).
        { apply ic. revert hv. apply agreeing_sub; [intros P g; exact (proj1 (proj2 g))|trivial]. }
        assert (et : match t with Some s => Std s v | None => True end <-> match t with Some s => Prg s v | None => True end).
        { destruct t as [s|]; [|reflexivity]. apply it. revert hv. apply agreeing_sub; [intros P g; exact (proj1 (proj2 (proj2 g)))|trivial]. }
        assert (ee : match e with Some s => Std s v | None => True end <-> match e with Some s => Prg s v | None => True end).
        { destruct e as [s|]; [|reflexivity]. apply ie. revert hv. apply agreeing_sub; [intros P g; exact (proj2 (proj2 (proj2 g)))|trivial]. }
        change ((Std c v -> match t with Some s => Std s v | None => True end) /\ (~ Std c v -> match e with Some s => Std s v | None => True end)
            <-> (Prg c v -> match t with Some s => Prg s v | None => True end) /\ (~ Prg c v -> match e with Some s => Prg s v | None => True end)).
        rewrite ec, et, ee. reflexivity.
  Qed.
End Agree.
