(** A memo table around a function that does not change is invisible; around one that changes, an answer sticks until
    [size] other keys have been asked for. *)
From Verif Require Import Lru_Model.

Section Lru.
  Context {K V : Type} {EK : EqDec K}.
  Variable size : nat.

  Lemma dget_firstn (c : dict K V) n k v : dget k (firstn n c) = Some v -> dget k c = Some v.
  Proof.
    revert n. induction c as [|[k' v'] c IH]; intros [|n] h; try discriminate. cbn [firstn dget] in *.
    destruct (eq_dec k k'); [exact h|eapply IH; exact h].
  Qed.
  (** an entry after a call was there before, or is the result of the call *)
  Lemma lru_entry (f : K -> res V) k c k' v : dget k' (snd (lru_call size f k c)) = Some v ->
    dget k' c = Some v \/ (k' = k /\ f k = Ok v).
  Proof.
    unfold lru_call. destruct (dget k c) as [w|] eqn:e; cbn [snd].
    - cbn [dget]. destruct (eq_dec k' k) as [->|n]; [intros h; left; congruence|]. rewrite dget_ddel.
      destruct (eq_dec k' k); [contradiction|auto].
    - destruct (f k) as [w|x] eqn:ef; cbn [snd]; [|auto]. intros h. apply dget_firstn in h. cbn [dget] in h.
      destruct (eq_dec k' k) as [->|n]; [right; split; congruence|auto].
  Qed.
  Lemma lru_miss (f : K -> res V) k c : dget k c = None -> fst (lru_call size f k c) = f k.
  Proof. intros e. unfold lru_call. rewrite e. destruct (f k); reflexivity. Qed.
  Lemma lru_hit (f : K -> res V) k c v : dget k c = Some v -> fst (lru_call size f k c) = Ok v.
  Proof. intros e. unfold lru_call. rewrite e. reflexivity. Qed.

  Fixpoint lru_run (f : K -> res V) (ks : list K) (c : dict K V) : dict K V :=
    match ks with [] => c | k :: ks' => lru_run f ks' (snd (lru_call size f k c)) end.

  Theorem lru_transparent : forall f ks k, fst (lru_call size f k (lru_run f ks [])) = f k.
  Proof.
    intros f ks k.
    assert (inv : forall ks c, (forall k v, dget k c = Some v -> f k = Ok v) -> forall k v, dget k (lru_run f ks c) = Some v -> f k = Ok v).
    { clear. induction ks as [|k0 ks IH]; intros c h; [exact h|]. cbn [lru_run]. apply IH. intros k v e. apply lru_entry in e.
      destruct e as [e|[-> e]]; [apply h; exact e|exact e]. }
    destruct (dget k (lru_run f ks [])) as [v|] eqn:e; [|apply lru_miss; exact e].
    rewrite (lru_hit _ _ _ _ e). symmetry. eapply (inv ks []); [|exact e]. discriminate.
  Qed.

  (** [u]'s answer [d] is among the first [S i] entries *)
  Definition Front (i : nat) (u : K) (d : V) (c : dict K V) : Prop :=
    exists pre post, c = pre ++ (u, d) :: post /\ ~ In u (dkeys pre) /\ length pre <= i.
  Lemma front_hit i u d c : Front i u d c -> dget u c = Some d.
  Proof.
    intros (pre & post & -> & n & _). induction pre as [|[k v] pre IH]; cbn [app dget].
    - destruct (eq_dec u u); [reflexivity|contradiction].
    - destruct (eq_dec u k) as [->|ne]; [destruct n; left; reflexivity|]. apply IH. intros i'. apply n. right. exact i'.
  Qed.
  Lemma ddel_app (k : K) (a b : dict K V) : ddel k (a ++ b) = ddel k a ++ ddel k b.
  Proof. induction a as [|[k' v'] a IH]; [reflexivity|]. cbn [app ddel]. destruct (eq_dec k k'); [exact IH|]. rewrite IH. reflexivity. Qed.
  Lemma ddel_len (k : K) (a : dict K V) : length (ddel k a) <= length a.
  Proof. induction a as [|[k' v'] a IH]; [reflexivity|]. cbn [ddel]. destruct (eq_dec k k'); cbn [length]; lia. Qed.
  Lemma front_other f k u d i c : Front i u d c -> k <> u -> S i < size -> Front (S i) u d (snd (lru_call size f k c)).
  Proof.
    intros (pre & post & -> & n & l) ne ls. unfold lru_call. destruct (dget k (pre ++ (u, d) :: post)) as [v|]; cbn [snd].
    - rewrite ddel_app. cbn [ddel]. destruct (eq_dec k u); [contradiction|]. exists ((k, v) :: ddel k pre), (ddel k post).
      split; [reflexivity|]. split.
      + cbn [dkeys map fst]. intros [h|h]; [contradiction|]. fold (dkeys (ddel k pre)) in h. rewrite dkeys_ddel in h. apply filter_In in h. tauto.
      + cbn [length]. pose proof (ddel_len k pre). lia.
    - destruct (f k) as [v|x]; cbn [snd].
      + exists ((k, v) :: pre), (firstn (size - S (S (length pre))) post). split.
        * change ((k, v) :: pre ++ (u, d) :: post) with (((k, v) :: pre) ++ ((u, d) :: post)). rewrite firstn_app, firstn_all2 by (cbn [length]; lia).
          f_equal. cbn [length]. replace (size - S (length pre)) with (S (size - S (S (length pre)))) by lia. reflexivity.
        * split; [|cbn [length]; lia]. cbn [dkeys map fst]. intros [h|h]; [contradiction|exact (n h)].
      + exists pre, post. split; [reflexivity|]. split; [exact n|lia].
  Qed.
  Lemma front_self f i u d c : Front i u d c -> Front 0 u d (snd (lru_call size f u c)).
  Proof.
    intros h. unfold lru_call. rewrite (front_hit _ _ _ _ h). exists [], (ddel u c). split; [reflexivity|]. split; [intros []|reflexivity].
  Qed.
  Lemma front_new f u d c : 0 < size -> fst (lru_call size f u c) = Ok d -> Front 0 u d (snd (lru_call size f u c)).
  Proof.
    intros l h. unfold lru_call in *. destruct (dget u c) as [v|].
    - cbn [fst snd] in *. injection h as ->. exists [], (ddel u c). split; [reflexivity|]. split; [intros []|reflexivity].
    - destruct (f u) as [v|x]; cbn [fst snd] in *; [|discriminate]. injection h as ->. destruct size as [|n]; [lia|].
      exists [], (firstn n c). split; [reflexivity|]. split; [intros []|reflexivity].
  Qed.
End Lru.
Print Assumptions lru_transparent.
