(** Serialising objects within objects. *)
From Verif Require Import Ser_Spec Ser_Proofs.
Local Open Scope list_scope.

Section Props.
  Variable cls : nat -> scls.
  Variable arr : nat -> sarr.
  Variable prim : nat -> sv -> res out.
  Variable o : sopts.
  Notation ser := (ser cls arr prim o).
  Notation members := (members cls arr prim o).
  Notation Leads := (Leads cls arr o).

  Lemma schema_flag (k : string) c d : k <> "$schema"%string \/ c = d -> k <> "$schema"%string \/ (false || negb (Nat.eqb c d) = false).
  Proof. intros [h|h]; [auto|right]. subst. rewrite Nat.eqb_refl. reflexivity. Qed.

  (** every shown member is in the document, at its place, as its type writes it *)
  Theorem shown_written : forall e t v p e' t' v', Leads e t v p e' t' v' -> forall w, Proper v -> ser v t e = Ok w ->
    exists w', at_out w p = Some w' /\ ser v' t' e' = Ok w'.
  Proof.
    induction 1 as [e t v|e t own l a i x t' p e' t2 v' ha hi ht hn hl IH|e t c d fs k x t' p e' t2 v' hw hf hi ht hs ha he hh hr hn hl IH]; intros w pr h.
    - exists w. auto.
    - rewrite (ser_arr _ _ _ _ _ _ a) in h by exact ha. unfold write_array in h. destruct (write_items _ _ _ _ _ _) as [r|y] eqn:er; [|discriminate]. cbn [rbind] in h. injection h as <-.
      apply write_items_spec in er. destruct er as [el er]. cbn [at_out].
      destruct (nth_error r i) as [w|] eqn:ew; [|apply nth_error_None in ew; rewrite el in ew; apply nth_error_None in ew; congruence].
      pose proof (er i x w hi ew) as q. unfold item_out in q. cbn [Nat.add] in q. rewrite (proj2 (item_type_spec _ _ _ _) ht) in q.
      assert (N : s_nd o && is_null x = false). { destruct (s_nd o); [|reflexivity]. specialize (hn eq_refl). destruct x; try reflexivity. congruence. }
      rewrite N in q. apply IH; [|exact q]. inversion pr as [| |? ? pl|]; subst. apply pl. eapply nth_error_In; eassumption.
    - rewrite (ser_obj _ _ _ _ _ _ d) in h by exact hw. inversion pr as [| | |? ? nd px]; subst.
      destruct (shown_included cls o _ _ _ _ he hh hr hn) as [hinc hkeep].
      assert (E : exists r, write_object cls o false d c e [] (members fs) = Ok r /\ exists w0, w = ODict w0 /\ dget k w0 = dget k r).
      { unfold write_entity in h. destruct (so_keys (cls d)) as [ks|] eqn:ek.
        - destruct hf as [hf|[h1 h2]]; [congruence|]. rewrite h1, h2, !andb_false_r in h. destruct (write_object cls o false d c e [] (members fs)) as [r|y]; [|discriminate]. cbn [rbind] in h.
          exists r. split; [reflexivity|]. destruct (s_add o) eqn:es; [|injection h as <-; eauto].
          destruct (add_keys fs ks r) as [r'|y] eqn:er; [|discriminate]. injection h as <-. exists r'. split; [reflexivity|]. rewrite (add_keys_get _ _ _ _ k er).
          destruct (dget k fs); [|reflexivity]. destruct (mem_spec EqDec_string k ks) as [i|i]; [|reflexivity]. destruct (ha eq_refl). exists ks. auto.
        - destruct (write_object cls o false d c e [] (members fs)) as [r|y]; [|discriminate]. injection h as <-. eauto. }
      destruct E as (r & er & w0 & -> & eg).
      destruct (write_object_kept _ _ _ _ _ _ _ _ _ _ _ k x nd er (schema_flag _ _ _ hs) hi hkeep) as (w' & t'' & g & h2 & h3).
      rewrite hinc in h3. assert (t'' = t') by congruence. subst t''. cbn [at_out]. rewrite eg, g. apply IH; [eapply px; eassumption|exact h3].
  Qed.

  (** the types without items write no structure of their own *)
  Definition Flat := forall n v w, prim n v = Ok w -> match w with ODict _ | OArr _ => False | _ => True end.

  Lemma key_values_raw fs ks l : key_values fs ks = Ok l -> forall x, In x l -> match x with ODict _ | OArr _ => False | _ => True end.
  Proof.
    revert l. induction ks as [|k ks IH]; intros l h; cbn in h; [injection h as <-; intros x []|]. destruct (dget k fs) as [v|]; [|discriminate].
    destruct (key_values fs ks) as [l'|]; [|discriminate]. injection h as <-. intros x [<-|i]; [destruct v; exact I|]. eapply IH; eauto.
  Qed.
  Lemma identity_raw c fs w : identity cls c fs = Ok w -> match w with ODict _ | OArr _ => False | _ => True end.
  Proof.
    unfold identity. destruct (so_keys (cls c)) as [ks|]; [|discriminate]. destruct (key_values fs ks) as [l|] eqn:e; [|discriminate]. cbn [rbind]. injection 1 as <-.
    destruct l as [|x [|y l]]; try exact I. eapply key_values_raw; [exact e|left; reflexivity].
  Qed.
  Lemma entity_cases t c d fs e w : Writes t c d -> ser (SObj c fs) t e = Ok w -> s_add o = false ->
    (exists r, w = ODict r /\ write_object cls o false d c e [] (members fs) = Ok r /\ (InFull cls o d \/ fs = [])) \/
    identity cls c fs = Ok w.
  Proof.
    intros hw h ha. rewrite (ser_obj _ _ _ _ _ _ d) in h by exact hw. unfold write_entity in h. rewrite ha in h. destruct (so_keys (cls d)) as [ks|] eqn:ek.
    - destruct fs as [|f fs].
      + cbn [negb andb] in h. left. destruct (write_object cls o false d c e [] (members [])) as [r|]; [|discriminate]. injection h as <-. eauto.
      + cbn [negb andb] in h. destruct (s_ids o) eqn:ei; [right; exact h|]. destruct (s_ent o) eqn:en; [discriminate|]. left.
        destruct (write_object cls o false d c e [] (members (f :: fs))) as [r|]; [|discriminate]. injection h as <-. exists r. split; [reflexivity|]. split; [reflexivity|]. left. right. auto.
    - left. destruct (write_object cls o false d c e [] (members fs)) as [r|]; [|discriminate]. injection h as <-. exists r. split; [reflexivity|]. split; [reflexivity|]. left. left. exact ek.
  Qed.

  Lemma at_null p w : at_out ONull p = Some w -> w = ONull.
  Proof. destruct p as [|[k|i] p]; cbn; [congruence|discriminate..]. Qed.
  Lemma at_flat w s p : match w with ODict _ | OArr _ => False | _ => True end -> at_out w (s :: p) = None.
  Proof. destruct s; destruct w; cbn; tauto. Qed.

  (** and nothing else is: what the document has is null, or shown, or the name of the class of a shown object *)
  Theorem written_shown : Flat -> s_add o = false -> forall v t e w, Proper v -> ser v t e = Ok w -> forall p w', at_out w p = Some w' -> w' <> ONull ->
    (exists e' t' v', Leads e t v p e' t' v' /\ ser v' t' e' = Ok w') \/
    (exists q e' t' c d fs, p = q ++ [PKey "$schema"%string] /\ Leads e t v q e' t' (SObj c fs) /\ Writes t' c d /\ c <> d /\ w' = OSchema c).
  Proof.
    intros flat hadd. induction v as [|a|own l IH|c fs IH] using sv_ind'; intros t e w pr h p w' g nn;
      (destruct p as [|s p]; [cbn in g; injection g as <-; left; exists e, t; eexists; split; [apply L_here|exact h]|]).
    - destruct t; cbn in h; try discriminate; try (injection h as <-).
      + rewrite (at_flat _ _ _ (flat _ _ _ h)) in g. discriminate.
      + rewrite at_flat in g by exact I. discriminate.
      + rewrite at_flat in g by exact I. discriminate.
      + rewrite hadd in h. injection h as <-. destruct s; discriminate.
    - destruct t; cbn in h; try discriminate; try (injection h as <-).
      + rewrite (at_flat _ _ _ (flat _ _ _ h)) in g. discriminate.
      + rewrite at_flat in g by exact I. discriminate.
      + rewrite at_flat in g by exact I. discriminate.
      + rewrite hadd in h. destruct (truthy a); [discriminate|]. injection h as <-. destruct s; discriminate.
    - assert (D : (exists a, t = TArr a \/ t = TAny /\ own = Some a) \/ (match w with OArr _ => False | ODict r => r = [] | _ => True end)).
      { destruct t as [n| | |a|d].
        - right. cbn in h. apply flat in h. destruct w; tauto.
        - destruct own as [a|]; [left; exists a; auto|]. right. cbn in h. injection h as <-. exact I.
        - right. cbn in h. injection h as <-. exact I.
        - left. eauto.
        - right. cbn in h. destruct l; [|discriminate]. injection h as <-. reflexivity. }
      destruct D as [[a ha]|D].
      2:{ destruct s; destruct w; cbn in g; try discriminate; try contradiction. subst. discriminate. }
      rewrite (ser_arr _ _ _ _ _ _ a) in h by exact ha. unfold write_array in h. destruct (write_items _ _ _ _ _ _) as [r|y] eqn:er; [|discriminate]. cbn [rbind] in h. injection h as <-.
      apply write_items_spec in er. destruct er as [el er]. destruct s as [k|i]; cbn [at_out] in g; [discriminate|].
      destruct (nth_error r i) as [wi|] eqn:ew; [|discriminate].
      destruct (nth_error l i) as [x|] eqn:ex; [|apply nth_error_None in ex; rewrite <- el in ex; apply nth_error_None in ex; congruence].
      pose proof (er i x wi ex ew) as q. unfold item_out in q. cbn [Nat.add] in q.
      destruct (item_type arr a i) as [t'|] eqn:et; [|injection q as <-; apply at_null in g; contradiction].
      destruct (s_nd o && is_null x) eqn:en; [injection q as <-; apply at_null in g; contradiction|].
      assert (px : Proper x). { inversion pr as [| |? ? pl|]; subst. apply pl. eapply nth_error_In; eassumption. }
      assert (N : s_nd o = true -> x <> SNull). { intros hn ->. rewrite hn in en. discriminate. }
      destruct (IH x (nth_error_In _ _ ex) t' _ wi px q p w' g nn) as [(e2 & t2 & v2 & h1 & h2)|(q' & e2 & t2 & c & d & fs & hp & h1 & h2)].
      + left. exists e2, t2, v2. split; [|exact h2]. eapply L_item; try eassumption. apply item_type_spec, et.
      + right. exists (PIdx i :: q'), e2, t2, c, d, fs. split; [rewrite hp; reflexivity|]. split; [|exact h2]. eapply L_item; try eassumption. apply item_type_spec, et.
    - assert (D : (exists d, Writes t c d) \/ (match w with OArr _ | ODict _ => False | _ => True end)).
      { destruct t as [n| | |a|d].
        - right. cbn in h. apply flat in h. destruct w; tauto.
        - left. exists c. right. auto.
        - right. cbn in h. injection h as <-. exact I.
        - discriminate.
        - left. exists d. left. reflexivity. }
      destruct D as [[d hw]|D]; [|rewrite at_flat in g by exact D; discriminate].
      destruct (entity_cases _ _ _ _ _ _ hw h hadd) as [(r & -> & er & hf)|hid]; [|rewrite (at_flat _ _ _ (identity_raw _ _ _ hid)) in g; discriminate].
      destruct s as [k|i]; cbn [at_out] in g; [|discriminate]. destruct (dget k r) as [wk|] eqn:ek; [|discriminate].
      inversion pr as [| | |? ? nd px]; subst.
      assert (K : (k <> "$schema"%string \/ c = d) \/ k = "$schema"%string /\ c <> d). { destruct (string_dec k "$schema"); [|tauto]. destruct (Nat.eq_dec c d); tauto. }
      destruct K as [K|[-> K]].
      2:{ apply write_object_schema in er; [|cbn; apply Nat.eqb_neq in K; rewrite K; reflexivity]. rewrite er in ek. injection ek as <-.
          destruct p as [|[]]; cbn in g; try discriminate. injection g as <-. right. exists [], e, t, c, d, fs. split; [reflexivity|]. split; [apply L_here|]. auto. }
      apply (write_object_In _ _ _ _ _ _ _ _ _ _ _ _ _ nd er (schema_flag _ _ _ K)) in ek. destruct ek as (x & t' & hi & hk & ht & hx).
      assert (fl : InFull cls o d). { destruct hf as [hf| ->]; [exact hf|]. destruct hi. }
      destruct (included o (hides cls o c e) [] k x) eqn:en; [|injection hx as <-; apply at_null in g; contradiction].
      destruct (included_shown cls arr prim o c e [] k x en) as (s1 & s2 & s3 & s4 & _).
      assert (N : s_nd o = true -> x <> SNull /\ so_default (cls c) k x = false). { intros hn. split; [auto|]. eapply keeps_default; eassumption. }
      assert (A : s_add o = true -> ~ IsKey cls d k) by congruence.
      destruct (IH k x hi t' _ wk (px k x hi) hx p w' g nn) as [(e2 & t2 & v2 & h1 & h2)|(q' & e2 & t2 & c2 & d2 & fs2 & hp & h1 & h2)].
      + left. exists e2, t2, v2. split; [|exact h2]. eapply L_member; eassumption.
      + right. exists (PKey k :: q'), e2, t2, c2, d2, fs2. split; [rewrite hp; reflexivity|]. split; [|exact h2]. eapply L_member; eassumption.
  Qed.

  Lemma Leads_grow e t v p e' t' v' : Leads e t v p e' t' v' -> forall k, In k e -> In k e'.
  Proof. induction 1; intros n hn; [exact hn| |]; apply IHLeads; rewrite !in_app_iff; tauto. Qed.
  Lemma Leads_not e t v p k e' t' v' : Leads e t v (p ++ [PKey k]) e' t' v' -> ~ In k e.
  Proof.
    revert e t v. induction p as [|s p IH]; intros e t v h; cbn [app] in h.
    - inversion h; subst. assumption.
    - inversion h as [|? ? ? ? ? ? ? ? ? ? ? ? ? ? ? ? hl|? ? ? ? ? ? ? ? ? ? ? ? ? ? ? ? ? ? ? ? ? ? hl]; subst; apply IH in hl; rewrite !in_app_iff in hl; tauto.
  Qed.
  (** a name left out has no value anywhere in the document *)
  Theorem left_out_everywhere : Flat -> s_add o = false -> forall v t e w p k w', Proper v -> ser v t e = Ok w -> In k e -> k <> "$schema"%string ->
    at_out w (p ++ [PKey k]) = Some w' -> w' = ONull.
  Proof.
    intros flat hadd v t e w p k w' pr h i ns g. assert (D : w' = ONull \/ w' <> ONull) by (destruct w'; (left; reflexivity) || (right; discriminate)). destruct D as [D|D]; [exact D|].
    destruct (written_shown flat hadd _ _ _ _ pr h _ _ g D) as [(e' & t' & v' & h1 & _)|(q & e' & t' & c & d & fs & hp & _)].
    - apply Leads_not in h1. contradiction.
    - apply app_inj_tail in hp. destruct hp as [_ hp]. congruence.
  Qed.
  Lemma at_app w p q : at_out w (p ++ q) = match at_out w p with Some w' => at_out w' q | None => None end.
  Proof.
    revert w. induction p as [|s p IH]; intros w; [reflexivity|]. destruct s; cbn; destruct w; try reflexivity.
    - destruct (dget k l); [apply IH|reflexivity].
    - destruct (nth_error l i); [apply IH|reflexivity].
  Qed.
  (** what the class of an object does not serialise has no value in the part of the document of that object, at any depth *)
  Theorem not_serialized_below : Flat -> s_add o = false -> forall v t e w q e' t' c d fs r k w', Proper v -> ser v t e = Ok w ->
    Leads e t v q e' t' (SObj c fs) -> Writes t' c d -> Proper (SObj c fs) ->
    In k (so_hidden (cls c)) \/ (s_noro o = true /\ In k (so_readOnly (cls c))) -> k <> "$schema"%string ->
    at_out w (q ++ r ++ [PKey k]) = Some w' -> w' = ONull.
  Proof.
    intros flat hadd v t e w q e' t' c d fs r k w' pr h hl hw pr' hk ns g. destruct (shown_written _ _ _ _ _ _ _ hl w pr h) as (w1 & g1 & h1).
    rewrite at_app, g1 in g. assert (D : w' = ONull \/ w' <> ONull) by (destruct w'; (left; reflexivity) || (right; discriminate)). destruct D as [D|D]; [exact D|].
    destruct (written_shown flat hadd _ _ _ _ pr' h1 _ _ g D) as [(e2 & t2 & v2 & h2 & _)|(q2 & e2 & t2 & c2 & d2 & fs2 & hp & _)].
    - exfalso. destruct r as [|s r]; cbn [app] in h2.
      + inversion h2 as [| |? ? ? ? ? ? ? ? ? ? ? ? ? ? ? ? ? ? n1 n2 n3 ? ?]; subst. destruct hk as [hk|[h3 hk]]; [contradiction|]. apply (n3 h3 hk).
      + inversion h2 as [| |? ? ? ? ? ? ? ? ? ? ? ? ? ? ? ? ? ? n1 n2 n3 ? hl2]; subst. apply Leads_not in hl2. apply hl2. rewrite !in_app_iff.
        destruct hk as [hk|[h3 hk]]; [auto|]. rewrite h3. auto.
    - apply app_inj_tail in hp. destruct hp as [_ hp]. congruence.
  Qed.

  (** two members written alike *)
  Notation FN := (sty -> list string -> res out).
  Definition Same2 (c : nat) (e : list string) (m m' : string * (sv * FN)) : Prop :=
    fst m = fst m' /\ keeps cls o c e [] (fst m) (fst (snd m)) = keeps cls o c e [] (fst m) (fst (snd m')) /\
    included o e [] (fst m) (fst (snd m)) = included o e [] (fst m) (fst (snd m')) /\
    (included o e [] (fst m) (fst (snd m)) = true -> forall t, so_type (cls c) (fst m) = Some t -> snd (snd m) t e = snd (snd m') t e).
  Definition Same1 (c : nat) (e : list string) (m m' : string * (sv * FN)) : Prop :=
    (fst m = fst m' /\ keeps cls o c e [] (fst m) (fst (snd m)) = false /\ keeps cls o c e [] (fst m) (fst (snd m')) = false) \/ Same2 c e m m'.
  Lemma F2_filter {A} (R : A -> A -> Prop) (f : A -> bool) l l' : Forall2 R l l' -> (forall x y, R x y -> f x = f y) -> Forall2 R (filter f l) (filter f l').
  Proof.
    induction 1 as [|x y l l' hxy hl IH]; intros h; cbn; [constructor|]. rewrite (h x y hxy). destruct (f y); [constructor|]; auto.
  Qed.
  Lemma F2_impl {A} (R R' : A -> A -> Prop) l l' : Forall2 R l l' -> (forall x y, In x l -> In y l' -> R x y -> R' x y) -> Forall2 R' l l'.
  Proof.
    induction 1 as [|x y l l' hxy hl IH]; intros h; constructor.
    - apply h; cbn; auto.
    - apply IH. intros; apply h; cbn; auto.
  Qed.
  Lemma printed_same c e fs fs' : Forall2 (Same1 c e) fs fs' -> Forall2 (Same2 c e) (printed cls o c e [] fs) (printed cls o c e [] fs').
  Proof.
    intros h. assert (H : Forall2 (Same1 c e) (printed cls o c e [] fs) (printed cls o c e [] fs')).
    { unfold printed. apply F2_filter.
      - apply Forall2_app; (apply F2_filter; [exact h|]); intros x y [[q _]|[q _]]; rewrite q; reflexivity.
      - intros x y q. fold (keeps cls o c e [] (fst x) (fst (snd x))). fold (keeps cls o c e [] (fst y) (fst (snd y))).
        destruct q as [(q & h1 & h2)|(q & h1 & _)]; rewrite <- q; congruence. }
    eapply F2_impl; [exact H|]. intros [k [v f]] y i i' [(q & h1 & h2)|q]; [|exact q]. exfalso.
    apply printed_In in i; try assumption. destruct i as [_ i]. cbn in h1. congruence.
  Qed.
  Lemma write_members_same c e fs fs' : Forall2 (Same2 c e) fs fs' -> write_members cls o c e [] fs = write_members cls o c e [] fs'.
  Proof.
    induction 1 as [|[k [v f]] [k' [v' f']] l l' (q & _ & h2 & h3) hl IH]; [reflexivity|]. cbn [fst snd] in *. subst k'. cbn [write_members].
    destruct (so_type (cls c) k) as [t|] eqn:et; [|reflexivity]. rewrite <- h2. destruct (included o e [] k v).
    - rewrite (h3 eq_refl t eq_refl), IH. reflexivity.
    - rewrite IH. reflexivity.
  Qed.

  (** values that differ only in what is not shown give the same document *)
  Theorem only_shown_matters : forall v v' t e, Alike cls arr o e t v v' -> ser v t e = ser v' t e.
  Proof.
    induction v as [|a|own l IH|c fs IH] using sv_ind'; intros v' t e h.
    - inversion h; subst; reflexivity.
    - inversion h; subst; reflexivity.
    - inversion h as [|? ? ? a ? l' ha hl hx| |]; subst; [reflexivity|]. rewrite !(ser_arr _ _ _ _ _ _ a) by exact ha. unfold write_array. f_equal.
      assert (H : forall l1 l2 i, length l1 = length l2 ->
        (forall j x x', nth_error l1 j = Some x -> nth_error l2 j = Some x' -> forall t', item_type arr a (i + j) = Some t' ->
           (x = SNull <-> x' = SNull) /\ ser x t' (sa_hidden (arr a) ++ e) = ser x' t' (sa_hidden (arr a) ++ e)) ->
        write_items arr o a (sa_hidden (arr a) ++ e) i (items cls arr prim o l1) = write_items arr o a (sa_hidden (arr a) ++ e) i (items cls arr prim o l2)).
      { induction l1 as [|x l1 IH1]; intros [|x' l2] i el hh; try discriminate; [reflexivity|]. cbn [items map write_items]. fold (items cls arr prim o l1). fold (items cls arr prim o l2).
        rewrite (IH1 l2 (S i)).
        - destruct (item_type arr a i) as [t'|] eqn:et; [|reflexivity]. destruct (hh 0 x x' eq_refl eq_refl t') as [h1 h2]; [rewrite Nat.add_0_r; exact et|].
          assert (N : is_null x = is_null x'). { destruct x, x'; cbn; try reflexivity; exfalso; (discriminate (proj1 h1 eq_refl) || discriminate (proj2 h1 eq_refl)). }
          rewrite N, h2. reflexivity.
        - cbn in el. congruence.
        - intros j y y' g g' t' et. apply (hh (S j) y y' g g'). rewrite Nat.add_succ_r. exact et. }
      apply H; [exact hl|]. intros j x x' g g' t' et. apply item_type_spec in et. destruct (hx j x x' t' g g' et) as [h1 h2]. split; [exact h1|].
      apply IH; [eapply nth_error_In; exact g|exact h2].
    - inversion h as [|?|? ? ? d ? fs' hw hf hk hm|? ? ? d ks ? fs' hw hi hd hc n1 n2 hk]; subst; [reflexivity| |].
      + rewrite !(ser_obj _ _ _ _ _ _ d) by exact hw. set (e' := hides cls o c e) in *.
        assert (F : Forall2 (Same1 c e') (members fs) (members fs')).
        { assert (G : forall l l', map fst l = map fst l' ->
            (forall i k x x', nth_error l i = Some (k, x) -> nth_error l' i = Some (k, x') -> Same1 c e' (k, (x, ser x)) (k, (x', ser x'))) -> Forall2 (Same1 c e') (members l) (members l')).
          { induction l as [|[k x] l IHl]; intros [|[k' x'] l'] em hh; cbn in em; try discriminate; [constructor|]. injection em as <- em. cbn. constructor.
            - apply (hh 0); reflexivity.
            - apply IHl; [exact em|]. intros i. apply (hh (S i)). }
          apply G; [exact hk|]. intros i k x x' g g'. destruct (hm i k x x' g g') as [[h1 h2]|(h1 & h2 & h3)].
          - left. split; [reflexivity|]. cbn [fst snd]. assert (M : mem k e' = true). { apply mem_In. unfold e', hides. rewrite !in_app_iff. destruct h2 as [h2|[h2|[h0 h2]]]; auto. rewrite h0. auto. }
            unfold keeps, included. apply (mem_not_In EqDec_string) in h1. rewrite h1, M. split; reflexivity.
          - right. assert (N : is_null x = is_null x'). { destruct x, x'; cbn; try reflexivity; exfalso; (discriminate (proj1 h1 eq_refl) || discriminate (proj2 h1 eq_refl)). }
            split; [reflexivity|]. cbn [fst snd]. assert (In1 : included o e' [] k x = included o e' [] k x') by (unfold included; rewrite N; reflexivity).
            split; [unfold keeps; rewrite In1, h2; reflexivity|]. split; [exact In1|]. intros _ t' et. apply (IH k x (nth_error_In _ _ g)). apply h3, et. }
        assert (W : forall b, write_object cls o b d c e [] (members fs) = write_object cls o b d c e [] (members fs')).
        { intros b. unfold write_object. fold e'. rewrite (write_members_same c e' (printed cls o c e' [] (printed cls o c e' [] (members fs))) (printed cls o c e' [] (printed cls o c e' [] (members fs')))); [reflexivity|].
          apply printed_same. eapply F2_impl; [apply printed_same, F|]. intros; right; assumption. }
        unfold write_entity. rewrite W. destruct hf as [hf|(h1 & h2 & h3)]; [rewrite hf; reflexivity|]. rewrite h1, h2, h3, !andb_false_r. reflexivity.
      + rewrite !(ser_obj _ _ _ _ _ _ d) by exact hw. unfold write_entity. destruct (so_keys (cls d)); [|congruence]. rewrite hi.
        destruct fs; [congruence|]. destruct fs'; [congruence|]. cbn [negb andb]. unfold identity. rewrite hc.
        assert (K : key_values (p :: fs) ks = key_values (p0 :: fs') ks); [|rewrite K; reflexivity].
        clear -hk. induction ks as [|k ks IHk]; [reflexivity|]. cbn [key_values]. rewrite (hk k) by (left; reflexivity). destruct (dget k (p0 :: fs')); [|reflexivity].
        rewrite IHk; [reflexivity|]. intros; apply hk; right; assumption.
  Qed.

  (** values of the declared types are written *)
  Theorem typed_written : (forall n v, exists w, prim n v = Ok w) -> s_ent o = false -> forall v t e, Proper v -> Typed cls arr o t v -> exists w, ser v t e = Ok w.
  Proof.
    intros tot he. induction v as [|a|own l IH|c fs IH] using sv_ind'; intros t e pr h.
    - destruct t as [n| | |a|d]; cbn; eauto.
      + inversion h as [| |? hn| | | |]; subst. destruct (hn a eq_refl).
      + inversion h as [| |? hn ha| | | |]; subst. rewrite ha. cbn. eauto.
    - inversion h; subst; cbn; eauto.
    - inversion h as [| | | | |? ? ? a ha hx|]; subst; try solve [cbn; eauto].
      rewrite (ser_arr _ _ _ _ _ _ a) by exact ha. unfold write_array. set (e' := sa_hidden (arr a) ++ e).
      assert (H : forall l1 i, (forall j x t', nth_error l1 j = Some x -> item_type arr a (i + j) = Some t' -> s_nd o = true /\ x = SNull \/ exists w, ser x t' e' = Ok w) ->
        exists r, write_items arr o a e' i (items cls arr prim o l1) = Ok r).
      { induction l1 as [|x l1 IH1]; intros i hh; [cbn; eauto|]. cbn [items map write_items]. fold (items cls arr prim o l1).
        destruct (IH1 (S i)) as [r er]. { intros j y t' g et. apply (hh (S j) y t' g). rewrite Nat.add_succ_r. exact et. }
        rewrite er. destruct (item_type arr a i) as [t'|] eqn:et; [|cbn; eauto]. destruct (hh 0 x t' eq_refl) as [[h1 ->]|[w ew]]; [rewrite Nat.add_0_r; exact et| |].
        - rewrite h1. cbn. eauto.
        - destruct (s_nd o && is_null x); [cbn; eauto|]. rewrite ew. cbn. eauto. }
      destruct (H l 0) as [r er]; [|rewrite er; cbn; eauto]. intros j x t' g et. apply item_type_spec in et. destruct (hx j x t' g et) as [hn|ht]; [auto|]. right.
      apply IH; [eapply nth_error_In; exact g| |exact ht]. inversion pr as [| |? ? pl|]; subst. apply pl. eapply nth_error_In; exact g.
    - inversion h as [| | | | | |? ? d ? hw hx hk hk2]; subst; try solve [cbn; eauto].
      rewrite (ser_obj _ _ _ _ _ _ d) by exact hw. inversion pr as [| | |? ? nd px]; subst. set (e' := hides cls o c e).
      assert (W : exists r, write_object cls o false d c e [] (members fs) = Ok r).
      { unfold write_object. fold e'.
        assert (G : forall ms, (forall k x f, In (k, (x, f)) ms -> In (k, x) fs /\ f = ser x) -> exists r, write_members cls o c e' [] ms = Ok r).
        { induction ms as [|[k [x f]] ms IHm]; intros hm; [cbn; eauto|]. cbn [write_members]. destruct (hm k x f (or_introl eq_refl)) as [i ->].
          destruct (hx k x i) as (t' & -> & ht). destruct IHm as [r er]; [intros; apply hm; right; assumption|]. rewrite er.
          destruct (included o e' [] k x) eqn:en; [|cbn; eauto]. destruct ht as [[h1 ->]|ht].
          - unfold included in en. rewrite h1 in en. cbn in en. rewrite andb_false_r in en. discriminate.
          - destruct (IH k x i t' e' (px k x i) ht) as [w ew]. rewrite ew. cbn. eauto. }
        destruct (G (printed cls o c e' [] (printed cls o c e' [] (members fs)))) as [r er]; [|rewrite er; cbn; eauto].
        intros k x f i. apply printed_In in i; try assumption. destruct i as [i _]. apply printed_In in i; try assumption. destruct i as [i _]. apply members_In in i. exact i. }
      destruct W as [r er]. unfold write_entity. rewrite er, he, !andb_false_r. destruct (so_keys (cls d)) as [ks|] eqn:ek; [|cbn; eauto].
      assert (KV : forall ks', (forall k, In k ks' -> In k (map fst fs)) -> exists l, key_values fs ks' = Ok l).
      { induction ks' as [|k ks' IHk]; intros hh; [cbn; eauto|]. cbn [key_values]. destruct (dkeys_dget k fs (hh k (or_introl eq_refl))) as [v ->]. destruct IHk as [l el]; [intros; apply hh; right; assumption|].
        rewrite el. cbn. eauto. }
      destruct (negb match fs with [] => true | _ => false end && s_ids o).
      + unfold identity. destruct hk as (ks' & -> & hk); [congruence|]. destruct (KV ks' hk) as [l ->]. cbn. eauto.
      + cbn [rbind]. destruct (s_add o); [|cbn; eauto].
        assert (AK : forall ks' data, (forall k, In k ks' -> In k (map fst fs)) -> exists r', add_keys fs ks' data = Ok r').
        { induction ks' as [|k ks' IHk]; intros data hh; [cbn; eauto|]. cbn [add_keys]. destruct (dkeys_dget k fs (hh k (or_introl eq_refl))) as [v ->]. apply IHk. intros; apply hh; right; assumption. }
        destruct (AK ks r) as [r' ->]; [|cbn; eauto]. intros k i. apply hk2. exists ks. auto.
  Qed.

  (** ** the object asked for *)
  (** without options of its own it is written as if found under no declared type *)
  Theorem root_as_nested : forall e c fs, so_keys (cls c) = None \/ s_ids o = false /\ s_ent o = false ->
    do_serialize cls arr prim o false false [] e c fs = ser (SObj c fs) TAny e.
  Proof.
    intros e c fs h. rewrite (ser_obj _ _ _ _ _ _ c) by (right; auto). unfold do_serialize, write_entity. destruct (so_keys (cls c)) as [ks|]; [|reflexivity].
    destruct h as [h|[h1 h2]]; [discriminate|]. rewrite h1, h2, !andb_false_r. reflexivity.
  Qed.
  (** its members: [only] and [schema] are for it alone; the required ones are always there, null when left out *)
  Theorem root_members : forall schema root only e c fs r, NoDup (map fst fs) -> s_add o = false ->
    so_keys (cls c) = None \/ root = true \/ s_ids o = false /\ s_ent o = false ->
    do_serialize cls arr prim o schema root only e c fs = Ok r ->
    exists l, r = ODict l /\ (schema = true -> dget "$schema"%string l = Some (OSchema c)) /\
      forall k w, k <> "$schema"%string \/ schema = false ->
        (dget k l = Some w <->
         exists x t, In (k, x) fs /\ so_type (cls c) k = Some t /\ (s_nd o = true -> so_default (cls c) k x = false) /\
           let shown := ~ In k e /\ ~ In k (so_hidden (cls c)) /\ (s_noro o = true -> ~ In k (so_readOnly (cls c))) /\
                        (s_nd o = true -> x <> SNull) /\ (only = [] \/ In k only) in
           (shown /\ ser x t (so_hidden (cls c) ++ e ++ (if s_noro o then so_readOnly (cls c) else [])) = Ok w) \/
           (In k (so_required (cls c)) /\ ~ shown /\ w = ONull)).
  Proof.
    intros schema root only e c fs r nd hadd hroot h.
    assert (W : exists l, r = ODict l /\ write_object cls o schema c c e only (members fs) = Ok l).
    { unfold do_serialize in h. rewrite hadd in h. destruct (so_keys (cls c)) as [ks|].
      - assert (F : forall b, (b = s_ids o \/ b = s_ent o) -> negb match fs with [] => true | _ :: _ => false end && negb root && b = false).
        { intros b hb. destruct hroot as [hr|[->|[h1 h2]]]; [discriminate| |].
          - cbn. rewrite andb_false_r. reflexivity.
          - assert (b = false) as -> by (destruct hb; congruence). rewrite andb_false_r. reflexivity. }
        rewrite !F in h by auto. destruct (write_object cls o schema c c e only (members fs)) as [l|]; [|discriminate]. injection h as <-. eauto.
      - destruct (write_object cls o schema c c e only (members fs)) as [l|]; [|discriminate]. injection h as <-. eauto. }
    destruct W as (l & -> & hw). exists l. split; [reflexivity|]. split.
    - intros hs. eapply write_object_schema; [exact hw|]. rewrite hs. reflexivity.
    - intros k w hk. rewrite (write_object_In _ _ _ _ _ _ _ _ _ _ _ k w nd hw).
      2:{ rewrite Nat.eqb_refl, orb_false_r. exact hk. }
      fold (hides cls o c e).
      assert (S : forall x, included o (hides cls o c e) only k x = true <->
        (~ In k e /\ ~ In k (so_hidden (cls c)) /\ (s_noro o = true -> ~ In k (so_readOnly (cls c))) /\ (s_nd o = true -> x <> SNull) /\ (only = [] \/ In k only))).
      { intros x. split; [intros i; apply (included_shown cls arr prim o _ _ _ _ _ i)|]. intros (s1 & s2 & s3 & s4 & s5). unfold included. rewrite !andb_true_iff. split; [split|].
        - apply negb_true_iff, mem_not_In. unfold hides. rewrite !in_app_iff. intros [i|[i|i]]; try contradiction. destruct (s_noro o); [apply s3 in i; auto|destruct i].
        - destruct s5 as [-> |s5]; [reflexivity|]. destruct only; [reflexivity|]. apply (mem_In EqDec_string), s5.
        - apply negb_true_iff. destruct (s_nd o); [|reflexivity]. specialize (s4 eq_refl). destruct x; try reflexivity. congruence. }
      split.
      + intros (x & t & hi & hkp & ht & hx). exists x, t. split; [exact hi|]. split; [exact ht|]. split; [intros hn; eapply keeps_default; eassumption|]. cbv zeta.
        destruct (included o (hides cls o c e) only k x) eqn:ei.
        * left. split; [apply S, ei|exact hx].
        * right. unfold keeps in hkp. rewrite ei, orb_false_r in hkp. apply andb_true_iff in hkp. destruct hkp as [hr _]. apply (mem_In EqDec_string) in hr. split; [exact hr|]. split; [|congruence].
          intros s. apply S in s. congruence.
      + intros (x & t & hi & ht & hd & hs). cbv zeta in hs. exists x, t. split; [exact hi|].
        assert (D : negb (s_nd o && so_default (cls c) k x) = true). { destruct (s_nd o); [|reflexivity]. rewrite hd by reflexivity. reflexivity. }
        destruct hs as [[hs hx]|(hr & hs & ->)].
        * apply S in hs. unfold keeps. rewrite hs, D, orb_true_r. auto.
        * assert (N : included o (hides cls o c e) only k x = false). { destruct (included o (hides cls o c e) only k x) eqn:ei; [|reflexivity]. apply S in ei. contradiction. }
          unfold keeps. rewrite N, D. apply (mem_In EqDec_string) in hr. rewrite hr. auto.
  Qed.

  (** ** entities *)
  (** an entity found where entities are declared is written by its keys only, when asked to *)
  Theorem entity_by_keys : forall t c d ks fs e, Writes t c d -> so_keys (cls d) <> None -> so_keys (cls c) = Some ks -> fs <> [] -> s_ids o = true ->
    forall w, (ser (SObj c fs) t e = Ok w <->
      exists vs, length vs = length ks /\ (forall i k, nth_error ks i = Some k -> exists v, dget k fs = Some v /\ nth_error vs i = Some (raw v)) /\
        w = match vs with [x] => x | _ => OTup vs end).
  Proof.
    intros t c d ks fs e hw hd hc hn hi w. rewrite (ser_obj _ _ _ _ _ _ d) by exact hw. unfold write_entity. destruct (so_keys (cls d)) as [kd|]; [|congruence]. rewrite hi.
    destruct fs as [|f fs]; [congruence|]. cbn [negb andb]. unfold identity. rewrite hc. set (g := f :: fs).
    assert (KV : forall ks vs, key_values g ks = Ok vs <-> length vs = length ks /\ forall i k, nth_error ks i = Some k -> exists v, dget k g = Some v /\ nth_error vs i = Some (raw v)).
    { clear. induction ks as [|k ks IH]; intros vs; cbn [key_values].
      - split; [injection 1 as <-; split; [reflexivity|]; intros [|i] ?; discriminate|]. intros [h _]. destruct vs; [reflexivity|discriminate].
      - destruct (dget k g) as [v|] eqn:ev.
        + destruct (key_values g ks) as [l|x] eqn:el; cbn [rbind].
          * split.
            -- injection 1 as <-. destruct (proj1 (IH l) eq_refl) as [h1 h2]. split; [cbn; congruence|]. intros [|i] k' hk; cbn in hk; [injection hk as <-; exists v; auto|]. apply h2, hk.
            -- intros [h1 h2]. destruct vs as [|y vs]; [discriminate|]. destruct (h2 0 k eq_refl) as (v' & e1 & e2). cbn in e2. assert (v' = v) by congruence. subst v'. injection e2 as ->.
               f_equal. f_equal. assert (H : Ok l = Ok vs); [|congruence]. apply IH. split; [cbn in h1; congruence|]. intros i k' hk. apply (h2 (S i) k' hk).
          * split; [discriminate|]. intros [h1 h2]. destruct vs as [|y vs]; [discriminate|]. assert (H : Err x = Ok vs); [|discriminate]. apply IH. split; [cbn in h1; congruence|]. intros i k' hk. apply (h2 (S i) k' hk).
        + split; [discriminate|]. intros [h1 h2]. destruct (h2 0 k eq_refl) as (v' & e1 & _). congruence. }
    destruct (key_values g ks) as [l|x] eqn:el; cbn [rbind].
    - split.
      + injection 1 as <-. exists l. apply KV in el. destruct el. auto.
      + intros (vs & h1 & h2 & ->). assert (H : key_values g ks = Ok vs) by (apply KV; auto). rewrite el in H. injection H as ->. reflexivity.
    - split; [discriminate|]. intros (vs & h1 & h2 & _). assert (H : key_values g ks = Ok vs) by (apply KV; auto). congruence.
  Qed.

  (** how the serialisation of an entity by its keys fails: the instance found is no entity, or has no member for a key *)
  Theorem entity_keys_missing : forall t c d fs e, Writes t c d -> so_keys (cls d) <> None -> fs <> [] -> s_ids o = true ->
    (so_keys (cls c) = None -> ser (SObj c fs) t e = Err AttributeError) /\
    (forall ks k, so_keys (cls c) = Some ks -> In k ks -> dget k fs = None -> ser (SObj c fs) t e = Err KeyError).
  Proof.
    intros t c d fs e hw hd hn hi. rewrite (ser_obj _ _ _ _ _ _ d) by exact hw. unfold write_entity. destruct (so_keys (cls d)) as [kd|]; [|congruence]. rewrite hi.
    destruct fs as [|f fs]; [congruence|]. cbn [negb andb]. unfold identity. set (g := f :: fs). split; [intros ->; reflexivity|].
    intros ks k -> ik nk. assert (K : key_values g ks = Err KeyError).
    { induction ks as [|k' ks IH]; [destruct ik|]. cbn [key_values]. destruct (dget k' g) eqn:ek; [|reflexivity]. destruct ik as [->|ik]; [congruence|]. rewrite (IH ik). reflexivity. }
    rewrite K. reflexivity.
  Qed.
  (** a value of the wrong kind is not written *)
  Theorem wrong_kind : forall e,
    (forall c fs a, ser (SObj c fs) (TArr a) e = Err TypeError) /\
    (forall own l d, l <> [] -> ser (SArr own l) (TObj d) e = Err AttributeError) /\
    (forall v a, v = SNull \/ (exists x, v = SAtom x) -> ser v (TArr a) e = Err TypeError) /\
    (forall x d, truthy x = true -> ser (SAtom x) (TObj d) e = Err AttributeError).
  Proof.
    intros e. split; [intros; reflexivity|]. split; [intros own [|x l] d h; [congruence|reflexivity]|]. split; [intros v a [->|(x & ->)]; reflexivity|].
    intros x d h. cbn. rewrite h. reflexivity.
  Qed.
  Lemma add_keys_spec : forall ks (fs : list (string * sv)) l r, NoDup ks -> add_keys fs ks l = Ok r ->
    (forall k v, In k ks -> dget k fs = Some v -> v <> SNull -> dget k r = Some (raw v)) /\
    (forall k, ~ In k ks \/ dget k fs = Some SNull -> dget k r = dget k l).
  Proof.
    induction ks as [|k ks IH]; intros fs l r nd h; [injection h as <-; split; [intros k v []|reflexivity]|]. cbn [add_keys] in h. inversion nd as [|? ? ni nd']; subst.
    destruct (dget k fs) as [x|] eqn:ex; [|discriminate]. destruct (IH fs _ r nd' h) as [h1 h2]. split.
    - intros k' v [<-|i] e nn; [|apply (h1 k' v i e nn)]. rewrite (h2 k (or_introl ni)). rewrite ex in e. injection e as ->.
      assert (N : is_null v = false) by (destruct v; try reflexivity; congruence). rewrite N. apply dget_dset_same.
    - intros k' d. assert (d' : ~ In k' ks \/ dget k' fs = Some SNull) by (destruct d as [d|d]; [left; intros i; apply d; right; exact i|right; exact d]).
      rewrite (h2 k' d'). destruct (is_null x) eqn:nx; [reflexivity|]. apply dget_dset_other. intros ->. destruct d as [d|d]; [apply d; left; reflexivity|].
      rewrite ex in d. injection d as ->. discriminate.
  Qed.
  Lemma add_keys_missing : forall ks (fs : list (string * sv)) k, In k ks -> dget k fs = None -> forall l, add_keys fs ks l = Err KeyError.
  Proof.
    induction ks as [|k' ks IH]; intros fs k i e l; [destruct i|]. cbn [add_keys]. destruct (dget k' fs) eqn:ek; [|reflexivity].
    destruct i as [->|i]; [congruence|]. apply (IH fs k i e).
  Qed.
  (** the keys can be asked for besides the members: they are then in the document, unless null, even if left out otherwise; an
      entity without one of its keys is not written *)
  Theorem keys_added : forall schema root only e c ks fs w, so_keys (cls c) = Some ks -> NoDup ks -> s_add o = true ->
    root = true \/ s_ids o = false /\ s_ent o = false -> do_serialize cls arr prim o schema root only e c fs = Ok w ->
    exists r, w = ODict r /\ forall k, In k ks -> exists v, dget k fs = Some v /\ (v <> SNull -> dget k r = Some (raw v)).
  Proof.
    intros schema root only e c ks fs w hk nd ha hr h. unfold do_serialize in h. rewrite hk, ha in h.
    assert (R : (negb (match fs with [] => true | _ => false end) && negb root && s_ids o) = false /\ (negb (match fs with [] => true | _ => false end) && negb root && s_ent o) = false).
    { destruct hr as [->|[-> ->]]; rewrite ?andb_false_r; auto. }
    destruct R as [R1 R2]. rewrite R1, R2 in h. destruct (write_object _ _ _ _ _ _ _ _) as [l|x]; [|discriminate]. cbn [rbind] in h.
    destruct (add_keys fs ks l) as [r|x] eqn:ea; [|discriminate]. injection h as <-. exists r. split; [reflexivity|]. intros k i.
    destruct (dget k fs) as [v|] eqn:ev; [|rewrite (add_keys_missing ks fs k i ev l) in ea; discriminate]. exists v. split; [reflexivity|]. intros nn.
    apply (proj1 (add_keys_spec ks fs l r nd ea) k v i ev nn).
  Qed.
  (** an entity serialised as a reference: its only key, called '$ref' when it is '$id' *)
  Theorem root_reference : forall schema only e c fs, fs <> [] -> s_ids o = false -> s_ent o = true ->
    (forall k v, so_keys (cls c) = Some [k] -> dget k fs = Some v -> k <> "$id"%string ->
       do_serialize cls arr prim o schema false only e c fs = Ok (ODict [(k, raw v)])) /\
    (forall v, so_keys (cls c) = Some ["$id"%string] -> dget "$id"%string fs = Some v ->
       do_serialize cls arr prim o schema false only e c fs = Ok (ODict [("$ref"%string, raw v)])) /\
    (forall ks, so_keys (cls c) = Some ks -> length ks <> 1 -> do_serialize cls arr prim o schema false only e c fs = Err AssertionError).
  Proof.
    intros schema only e c fs hn hi he. unfold do_serialize. rewrite hi, he. destruct fs as [|f fs]; [congruence|]. cbn [negb andb]. split; [|split].
    - intros k v -> hv nk. rewrite hv. apply (beq_false EqDec_string) in nk. rewrite nk. reflexivity.
    - intros v -> hv. rewrite hv. reflexivity.
    - intros [|k [|k2 ks]] -> h; cbn in h; try reflexivity. congruence.
  Qed.

  (** ** what is not as one would expect *)
  (** FINDING: a nested entity cannot be written as a reference: with use_entity_keys the serialisation fails *)
  Theorem nested_reference_refuted : forall t c d fs e, Writes t c d -> so_keys (cls d) <> None -> fs <> [] -> s_ids o = false -> s_ent o = true ->
    ser (SObj c fs) t e = Err TypeError.
  Proof.
    intros t c d fs e hw hd hn hi he. rewrite (ser_obj _ _ _ _ _ _ d) by exact hw. unfold write_entity. destruct (so_keys (cls d)); [|congruence]. rewrite hi, he.
    destruct fs; [congruence|]. reflexivity.
  Qed.
  (** FINDING: when an array has a list of types, the items after the last type are written as null *)
  Theorem extra_items_refuted : forall a ts own l e w i, sa_items (arr a) = inr ts -> length ts <= i < length l -> ser (SArr own l) (TArr a) e = Ok w ->
    at_out w [PIdx i] = Some ONull.
  Proof.
    intros a ts own l e w i ha hi h. rewrite (ser_arr _ _ _ _ _ _ a) in h by auto. unfold write_array in h. destruct (write_items _ _ _ _ _ _) as [r|y] eqn:er; [|discriminate]. cbn [rbind] in h. injection h as <-.
    apply write_items_spec in er. destruct er as [el er]. cbn [at_out]. destruct (nth_error r i) as [w|] eqn:ew; [|apply nth_error_None in ew; lia].
    destruct (nth_error l i) as [x|] eqn:ex; [|apply nth_error_None in ex; lia]. pose proof (er i x w ex ew) as q. unfold item_out, item_type in q. rewrite ha in q. cbn [Nat.add] in q.
    assert (N : nth_error ts i = None) by (apply nth_error_None; lia). rewrite N in q. congruence.
  Qed.
  (** FINDING: an object of another class than the declared one has the name of its class in the document, except under a member without
      declared type, where no class could be guessed *)
  Theorem untyped_class_refuted : forall c fs e r, NoDup (map fst fs) -> ~ In "$schema"%string (map fst fs) -> so_keys (cls c) = None ->
    ser (SObj c fs) TAny e = Ok (ODict r) -> dget "$schema"%string r = None.
  Proof.
    intros c fs e r nd ns hk h. rewrite (ser_obj _ _ _ _ _ _ c) in h by (right; auto). unfold write_entity in h. rewrite hk in h.
    destruct (write_object cls o false c c e [] (members fs)) as [l|] eqn:el; [|discriminate]. injection h as ->.
    destruct (dget "$schema"%string r) as [w|] eqn:ew; [|reflexivity]. exfalso.
    apply (write_object_In _ _ _ _ _ _ _ _ _ _ _ _ _ nd el) in ew; [|right; rewrite Nat.eqb_refl; reflexivity].
    destruct ew as (v & t & i & _). apply ns. apply (in_map fst) in i. exact i.
  Qed.
  Theorem declared_class : forall c d fs e r, so_keys (cls d) = None -> c <> d -> ser (SObj c fs) (TObj d) e = Ok (ODict r) -> dget "$schema"%string r = Some (OSchema c).
  Proof.
    intros c d fs e r hk hn h. rewrite (ser_obj _ _ _ _ _ _ d) in h by (left; auto). unfold write_entity in h. rewrite hk in h.
    destruct (write_object cls o false d c e [] (members fs)) as [l|] eqn:el; [|discriminate]. injection h as ->.
    eapply write_object_schema; [exact el|]. apply Nat.eqb_neq in hn. rewrite hn. reflexivity.
  Qed.
  (** FINDING: asking for the defaults too, an object that is null is written as an empty one *)
  Theorem null_object_refuted : forall d e, s_add o = false -> ser SNull (TObj d) e = Ok (ODict []).
  Proof. intros d e h. cbn. rewrite h. reflexivity. Qed.
End Props.

(** FINDING: a member that neither its own class nor the options leave out is not written when an object around it is of a class that
    does not serialise a member of the same name *)
Theorem same_name_refuted : exists cls arr prim o c fs r, do_serialize cls arr prim o false false [] [] c fs = Ok r /\
  exists c' fs' k x, In ("child"%string, SObj c' fs') fs /\ In (k, x) fs' /\ x <> SNull /\ ~ In k (so_hidden (cls c')) /\ so_default (cls c') k x = false /\
    at_out r [PKey "child"%string] <> None /\ at_out r [PKey "child"%string; PKey k] = None.
Proof.
  set (cls := fun c => match c with
                       | 0 => {| so_required := []; so_readOnly := []; so_hidden := ["secret"%string];
                                 so_type := fun k => if beq k "child"%string then Some (TObj 1) else Some (TPrim 0);
                                 so_default := fun _ _ => false; so_keys := None |}
                       | _ => {| so_required := []; so_readOnly := []; so_hidden := []; so_type := fun _ => Some (TPrim 0); so_default := fun _ _ => false; so_keys := None |}
                       end).
  exists cls, (fun _ => {| sa_hidden := []; sa_items := inl TAny |}), (fun _ v => Ok (raw v)), {| s_nd := true; s_noro := false; s_ids := false; s_ent := false; s_add := false |},
    0, [("secret", SAtom (VInt 1)); ("child", SObj 1 [("secret", SAtom (VInt 2)); ("n", SAtom (VInt 3))])]%string.
  eexists. split; [reflexivity|]. exists 1, [("secret", SAtom (VInt 2)); ("n", SAtom (VInt 3))]%string, "secret"%string, (SAtom (VInt 2)).
  split; [cbn; auto|]. split; [cbn; auto|]. split; [discriminate|]. split; [cbn; tauto|]. split; [reflexivity|]. split; [discriminate|]. reflexivity.
Qed.

(** ** cases *)
Module Case.
  (** 0: a team with a name, a list of members and a leader; 1: a person, an entity with the key "id"; 2: a class derived from 0 *)
  Definition cls (c : nat) : scls :=
    match c with
    | 1 => {| so_required := ["id"%string]; so_readOnly := []; so_hidden := ["pin"%string]; so_type := fun _ => Some (TPrim 0);
              so_default := fun _ _ => false; so_keys := Some ["id"%string] |}
    | _ => {| so_required := ["name"%string]; so_readOnly := ["size"%string]; so_hidden := ["cache"%string];
              so_type := fun k => if beq k "members"%string then Some (TArr 0) else if beq k "leader"%string then Some (TObj 1)
                                  else if beq k "sub"%string then Some (TObj 0) else Some (TPrim 0);
              so_default := fun k v => beq k "level"%string && match v with SAtom (VInt 0) => true | _ => false end; so_keys := None |}
    end.
  Definition arr (a : nat) : sarr := {| sa_hidden := []; sa_items := inl (TObj 1) |}.
  Definition prim (n : nat) (v : sv) : res out := Ok (raw v).
  Definition ann (pin : Z) : sv := SObj 1 [("id", SAtom (VInt 7)); ("pin", SAtom (VInt pin)); ("nick", SAtom (VStr "ann"))]%string.
  Definition bob : sv := SObj 1 [("id", SAtom (VInt 8)); ("pin", SAtom (VInt 1)); ("nick", SNull)]%string.
  Definition team (pin : Z) : list (string * sv) :=
    [("name", SAtom (VStr "t")); ("size", SAtom (VInt 2)); ("level", SAtom (VInt 0)); ("cache", SAtom (VInt 99));
     ("members", SArr (Some 0) [ann pin; SNull; bob]); ("leader", ann pin); ("sub", SObj 2 [("name", SAtom (VStr "u")); ("size", SAtom (VInt 1))])]%string.
  Definition o1 : sopts := {| s_nd := true; s_noro := false; s_ids := false; s_ent := false; s_add := false |}.
  Definition o2 : sopts := {| s_nd := true; s_noro := true; s_ids := true; s_ent := false; s_add := false |}.
End Case.

Example full_document : do_serialize Case.cls Case.arr Case.prim Case.o1 false false [] ["nick"%string] 0 (Case.team 5) =
  Ok (ODict [("name", OAtom (VStr "t")); ("size", OAtom (VInt 2));
             ("members", OArr [ODict [("id", OAtom (VInt 7))]; ONull; ODict [("id", OAtom (VInt 8))]]);
             ("leader", ODict [("id", OAtom (VInt 7))]);
             ("sub", ODict [("$schema", OSchema 2); ("name", OAtom (VStr "u")); ("size", OAtom (VInt 1))])]%string).
Proof. reflexivity. Qed.
Example keys_document : do_serialize Case.cls Case.arr Case.prim Case.o2 false false [] [] 0 (Case.team 5) =
  Ok (ODict [("name", OAtom (VStr "t")); ("members", OArr [OAtom (VInt 7); ONull; OAtom (VInt 8)]); ("leader", OAtom (VInt 7));
             ("sub", ODict [("$schema", OSchema 2); ("name", OAtom (VStr "u"))])]%string).
Proof. reflexivity. Qed.
Example proper_case : Proper (SObj 0 (Case.team 5)).
Proof.
  assert (A : forall p, Proper (Case.ann p)).
  { intros p. apply P_obj; [repeat constructor; cbn; intuition discriminate|]. intros k x [e|[e|[e|[]]]]; injection e as _ <-; constructor. }
  apply P_obj; [repeat constructor; cbn; intuition discriminate|].
  intros k x [e|[e|[e|[e|[e|[e|[e|[]]]]]]]]; injection e as _ <-; try (constructor; fail).
  - apply P_arr. intros x [<-|[<-|[<-|[]]]]; [apply A|constructor|].
    apply P_obj; [repeat constructor; cbn; intuition discriminate|]. intros k' x [e|[e|[e|[]]]]; injection e as _ <-; constructor.
  - apply A.
  - apply P_obj; [repeat constructor; cbn; intuition discriminate|]. intros k' x [e|[e|[]]]; injection e as _ <-; constructor.
Qed.
Example leads_case : Leads Case.cls Case.arr Case.o1 [] TAny (SObj 0 (Case.team 5)) [PKey "members"%string; PIdx 2; PKey "id"%string] ["pin"; "cache"]%string (TPrim 0) (SAtom (VInt 8)).
Proof.
  eapply L_member with (d := 0); [right; auto|left; reflexivity|cbn; right; right; right; right; left; reflexivity|reflexivity|left; discriminate|discriminate|
    cbn; tauto|cbn; intuition discriminate|discriminate|split; [discriminate|reflexivity]|].
  eapply L_item with (a := 0); [left; reflexivity|reflexivity|left; reflexivity|discriminate|].
  eapply L_member with (d := 1); [left; reflexivity|right; split; reflexivity|cbn; left; reflexivity|reflexivity|left; discriminate|discriminate|
    cbn; intuition discriminate|cbn; intuition discriminate|discriminate|split; [discriminate|reflexivity]|].
  apply L_here.
Qed.
Example flat_case : Flat Case.prim.
Proof. intros n v w h. injection h as <-. destruct v; exact I. Qed.
Example alike_case : Alike Case.cls Case.arr Case.o2 [] TAny (SObj 0 (Case.team 5)) (SObj 0 (Case.team 6)).
Proof.
  eapply A_object with (d := 0); [right; auto|left; reflexivity|reflexivity|].
  assert (E : forall t e, Writes t 1 1 -> Alike Case.cls Case.arr Case.o2 e t (Case.ann 5) (Case.ann 6)).
  { intros t e h. eapply A_entity with (d := 1) (ks := ["id"%string]); [exact h|reflexivity|discriminate|reflexivity|discriminate|discriminate|].
    intros k [<-|[]]. reflexivity. }
  intros i k x x' g g'.
  destruct i as [|[|[|[|[|[|[|[|]]]]]]]]; cbn in g, g'; try discriminate; injection g as <- <-; injection g' as <-; right;
    (split; [split; (discriminate || tauto)|]); (split; [reflexivity|]); intros t' et; cbn in et; injection et as <-; try apply A_same.
  - eapply A_item with (a := 0); [left; reflexivity|reflexivity|]. intros i x x' t' h h' ht. assert (t' = TObj 1) as -> by (destruct ht as [ht|(ts & ht & _)]; cbn in ht; congruence).
    destruct i as [|[|[|[|]]]]; cbn in h, h'; try discriminate; injection h as <-; injection h' as <-; (split; [split; (discriminate || tauto)|]); try apply A_same.
    apply E. left. reflexivity.
  - apply E. left. reflexivity.
Qed.
Example typed_case : Typed Case.cls Case.arr Case.o1 TAny (SObj 2 [("name", SAtom (VStr "u")); ("sub", SNull)]%string).
Proof.
  eapply T_obj with (d := 2); [right; auto| |intros h; destruct h; reflexivity|].
  - intros k x [e|[e|[]]]; injection e as <- <-; eexists; (split; [reflexivity|]); [right; constructor|left; auto].
  - intros k (ks & h & _). discriminate.
Qed.

Print Assumptions shown_written.
Print Assumptions written_shown.
Print Assumptions left_out_everywhere.
Print Assumptions not_serialized_below.
Print Assumptions only_shown_matters.
Print Assumptions typed_written.
Print Assumptions root_as_nested.
Print Assumptions root_members.
Print Assumptions entity_by_keys.
Print Assumptions root_reference.
Print Assumptions keys_added.
Print Assumptions wrong_kind.
Print Assumptions entity_keys_missing.
Print Assumptions nested_reference_refuted.
Print Assumptions extra_items_refuted.
Print Assumptions untyped_class_refuted.
Print Assumptions declared_class.
Print Assumptions null_object_refuted.
Print Assumptions same_name_refuted.
