From Verif Require Import Str_Model Str_Spec.

Lemma is_prefix_spec p s : is_prefix p s = true <-> exists r, s = p ++ r.
Proof.
  revert s. induction p as [|a p IH]; intros [|b s]; simpl.
  - split; eauto.
  - split; eauto.
  - split; [discriminate|]. intros (r & e). discriminate.
  - rewrite andb_true_iff, beq_true, IH. split.
    + intros (-> & r & ->). eauto.
    + intros (r & e). injection e as -> ->. eauto.
Qed.
Lemma is_prefix_false p s : is_prefix p s = false <-> forall r, s <> p ++ r.
Proof.
  split.
  - intros h r e. assert (x : is_prefix p s = true) by (apply is_prefix_spec; eauto). congruence.
  - intros h. destruct (is_prefix p s) eqn:e; [|reflexivity]. apply is_prefix_spec in e. destruct e as (r & e). destruct (h r e).
Qed.

Lemma rfind_some old s a b : rfind_split old s = Some (a, b) ->
  s = a ++ old ++ b /\ forall a2, OccursAt old s a2 -> length a2 <= length a.
Proof.
  revert a b. induction s as [|x s IH]; intros a b; simpl.
  - destruct (is_prefix old []) eqn:e; [|discriminate]. injection 1 as <- <-. apply is_prefix_spec in e. destruct e as (r & e).
    symmetry in e. apply app_eq_nil in e. destruct e as (-> & _). split; [reflexivity|]. intros a2 (b2 & e). symmetry in e.
    apply app_eq_nil in e. destruct e as (-> & _). simpl. lia.
  - destruct (rfind_split old s) as [[a' b']|] eqn:e.
    + injection 1 as <- <-. destruct (IH a' b' eq_refl) as (-> & h). split; [reflexivity|]. intros a2 (b2 & e2).
      destruct a2 as [|y a2]; [simpl; lia|]. simpl in e2. injection e2 as <- e2. simpl. apply le_n_S, h. exists b2. exact e2.
    + destruct (is_prefix old (x :: s)) eqn:ep; [|discriminate]. injection 1 as <- <-. apply is_prefix_spec in ep. destruct ep as (r & er).
      split.
      * rewrite er. cbn [app]. rewrite skipn_app, skipn_all, Nat.sub_diag. reflexivity.
      * intros a2 (b2 & e2). destruct a2 as [|y a2]; [simpl; lia|]. exfalso. simpl in e2. injection e2 as <- e2.
        clear - e e2. revert s e e2. induction a2 as [|z a2 IH]; intros s e e2.
        -- subst s. simpl in e. destruct (old ++ b2) as [|w l] eqn:eo.
           ++ simpl in e. apply app_eq_nil in eo. destruct eo as (-> & _). discriminate.
           ++ simpl in e. destruct (rfind_split old l) as [[? ?]|]; [discriminate|]. rewrite <- eo in e.
              assert (x : is_prefix old (old ++ b2) = true) by (apply is_prefix_spec; eauto). rewrite x in e. discriminate.
        -- subst s. simpl in e. destruct (rfind_split old (a2 ++ old ++ b2)) as [[? ?]|] eqn:e3; [discriminate|].
           apply (IH _ e3 eq_refl).
Qed.
Lemma rfind_none old s : rfind_split old s = None -> forall a, ~ OccursAt old s a.
Proof.
  induction s as [|x s IH]; simpl; intros e a (b & eb).
  - destruct (is_prefix old []) eqn:ep; [discriminate|]. apply app_eq_nil in eb || (symmetry in eb; apply app_eq_nil in eb).
    destruct eb as (-> & eb). apply app_eq_nil in eb. destruct eb as (-> & _). discriminate.
  - destruct (rfind_split old s) as [[a' b']|] eqn:er; [discriminate|].
    destruct (is_prefix old (x :: s)) eqn:ep; [discriminate|]. destruct a as [|y a].
    + simpl in eb. apply (proj1 (is_prefix_false _ _) ep b). exact eb.
    + simpl in eb. injection eb as <- eb. apply (IH eq_refl a). exists b. exact eb.
Qed.

Lemma ljoin_snoc sep ws b : ws <> [] -> ljoin sep (ws ++ [b]) = ljoin sep ws ++ sep ++ b.
Proof.
  induction ws as [|w ws IH]; [congruence|]. intros _. destruct ws as [|w2 ws]; [reflexivity|].
  change ((w :: w2 :: ws) ++ [b]) with (w :: (w2 :: ws) ++ [b]).
  change (ljoin sep (w :: (w2 :: ws) ++ [b])) with (w ++ sep ++ ljoin sep ((w2 :: ws) ++ [b])).
  rewrite IH by discriminate. change (ljoin sep (w :: w2 :: ws)) with (w ++ sep ++ ljoin sep (w2 :: ws)).
  rewrite <- !app_assoc. reflexivity.
Qed.
Lemma rsplit_loop_nonempty fuel old s n : rsplit_loop fuel old s n <> [].
Proof. destruct fuel, n; simpl; try discriminate. destruct (rfind_split old s) as [[? ?]|]; [|discriminate].
       intros h. apply app_eq_nil in h. destruct h. discriminate. Qed.
Lemma rsplit_loop_spec old new : old <> [] -> forall fuel s n, length s <= fuel ->
  RRepl old new n s (ljoin new (rsplit_loop fuel old s n)).
Proof.
  intros ne. induction fuel as [|f IH]; intros s n le.
  - destruct s; [|simpl in le; lia]. simpl. destruct n; [constructor|]. apply RR_none. intros a (b & e). symmetry in e.
    apply app_eq_nil in e. destruct e as (_ & e). apply app_eq_nil in e. tauto.
  - destruct n as [|n]; [constructor|]. cbn [rsplit_loop]. destruct (rfind_split old s) as [[a b]|] eqn:e.
    + apply rfind_some in e. destruct e as (-> & h). rewrite ljoin_snoc by apply rsplit_loop_nonempty. apply RR_last; [exact h|].
      apply IH. rewrite app_length in le. destruct old; [congruence|]. rewrite app_length in le. simpl in le. lia.
    + apply RR_none. apply rfind_none. exact e.
Qed.
(** the relation determines the result *)
Lemma last_unique (old a b a2 b2 : list ascii) : a ++ old ++ b = a2 ++ old ++ b2 -> length a = length a2 -> a = a2 /\ b = b2.
Proof.
  intros e l. assert (x : a = a2 /\ old ++ b = old ++ b2).
  { revert a2 e l. induction a as [|x a IH]; intros [|y a2] e l; simpl in *; try discriminate; [auto|]. injection e as <- e.
    injection l as l. destruct (IH a2 e l) as (-> & h). auto. }
  destruct x as (-> & e2). split; [reflexivity|]. apply app_inv_head in e2. exact e2.
Qed.
Lemma RRepl_det old new n s r : RRepl old new n s r -> forall r', RRepl old new n s r' -> r = r'.
Proof.
  induction 1 as [s|n s h|n a b a' h hr IH]; intros r' h'.
  - inversion h'; reflexivity.
  - inversion h' as [|? ? h2|n2 a2 b2 a2' h2 hr2]; subst; try reflexivity. exfalso. apply (h a2). exists b2. reflexivity.
  - inversion h' as [|? ? h2|n2 a2 b2 a2' h2 hr2 e1 e2]; subst.
    + exfalso. apply (h2 a). exists b. reflexivity.
    + assert (l1 : length a2 <= length a) by (apply h; exists b2; congruence).
      assert (l2 : length a <= length a2) by (apply h2; rewrite e2; exists b; reflexivity).
      destruct (last_unique old a b a2 b2) as (-> & ->); [congruence|lia|]. rewrite (IH _ hr2). reflexivity.
Qed.

Lemma rreplace_spec s old new n : old <> [] -> exists r, rreplace s old new (Z.of_nat n) = Ok r /\ RRepl old new n s r.
Proof.
  intros ne. unfold rreplace, rsplit. 
  assert (m : forall {T} (p q : T), match old with [] => p | _ :: _ => q end = q) by (intros; destruct old; congruence). rewrite m. clear m.
  destruct (Z.ltb_spec (Z.of_nat n) 0) as [l|l]; [lia|]. rewrite Nat2Z.id. cbn [rbind]. eexists. split; [reflexivity|].
  apply rsplit_loop_spec; [exact ne|lia].
Qed.

(** * multiple_replace *)
Definition keys_nonempty (kvs : list (list ascii * list ascii)) : Prop := forall k v, In (k, v) kvs -> k <> [].
Lemma find_split_first {A} (f : A -> bool) l x : find f l = Some x -> exists l1 l2, l = l1 ++ x :: l2 /\ f x = true /\ forall y, In y l1 -> f y = false.
Proof.
  induction l as [|y l IH]; simpl; [discriminate|]. destruct (f y) eqn:e.
  - injection 1 as <-. exists [], l. simpl. repeat split; [exact e|tauto].
  - intros h. destruct (IH h) as (l1 & l2 & -> & fx & n). exists (y :: l1), l2. repeat split; [exact fx|]. intros z [<-|i]; auto.
Qed.
Lemma mreplace_pieces kvs : keys_nonempty kvs -> forall fuel s, length s < fuel ->
  exists ps, s = flat_map piece_in ps /\ GoodPieces kvs ps /\ mreplace_loop fuel kvs s = flat_map piece_out ps.
Proof.
  intros ne. induction fuel as [|f IH]; intros s lt; [lia|]. destruct s as [|x s]; cbn [mreplace_loop].
  - exists []. repeat split.
  - destruct (first_key kvs (x :: s)) as [[k v]|] eqn:e; unfold first_key in e.
    + apply find_split_first in e. destruct e as (l1 & l2 & ek & hp & hn). cbn [fst] in hp. apply is_prefix_spec in hp. destruct hp as (r & er).
      assert (nk : k <> []) by (apply (ne k v); rewrite ek; apply in_app_iff; right; left; reflexivity).
      assert (es : skipn (length k) (x :: s) = r) by (rewrite er, skipn_app, skipn_all, Nat.sub_diag; reflexivity).
      rewrite es. destruct (IH r) as (ps & e1 & g & e2).
      { apply (f_equal (@length ascii)) in er. rewrite app_length in er. destruct k; [congruence|]. simpl in er, lt. lia. }
      exists (PKey k v :: ps). cbn [flat_map piece_in piece_out]. rewrite <- e1, <- e2. split; [exact er|]. split; [|reflexivity].
      cbn [GoodPieces flat_map piece_in]. rewrite <- e1. split; [|exact g]. exists l1, l2. split; [exact ek|].
      intros k' v' r' i. specialize (hn (k', v') i). cbn [fst] in hn. rewrite er in hn. apply is_prefix_false. exact hn.
    + destruct (IH s) as (ps & e1 & g & e2); [simpl in lt; lia|]. exists (PChar x :: ps). cbn [flat_map piece_in piece_out app].
      rewrite <- e1, <- e2. split; [reflexivity|]. split; [|reflexivity]. cbn [GoodPieces flat_map piece_in app]. rewrite <- e1.
      split; [|exact g]. intros k v r i. apply is_prefix_false. apply (find_none _ _ e (k, v) i).
Qed.
Lemma GoodPieces_det kvs : keys_nonempty kvs -> NoDup (map fst kvs) -> forall ps qs, GoodPieces kvs ps -> GoodPieces kvs qs ->
  flat_map piece_in ps = flat_map piece_in qs -> ps = qs.
Proof.
  intros ne nd. induction ps as [|p ps IH]; intros qs gp gq e.
  - destruct qs as [|q qs]; [reflexivity|]. exfalso. destruct q as [c|k v]; simpl in e; [discriminate|].
    destruct gq as ((l1 & l2 & ek & _) & _). symmetry in e. apply app_eq_nil in e. destruct e as (-> & _).
    apply (ne [] v); [rewrite ek; apply in_app_iff; right; left; reflexivity|reflexivity].
  - destruct qs as [|q qs].
    { exfalso. destruct p as [c|k v]; simpl in e; [discriminate|].
      destruct gp as ((l1 & l2 & ek & _) & _). apply app_eq_nil in e. destruct e as (-> & _).
      apply (ne [] v); [rewrite ek; apply in_app_iff; right; left; reflexivity|reflexivity]. }
    cbn [GoodPieces] in gp, gq. destruct gp as (hp & gp), gq as (hq & gq).
    destruct p as [c|k v], q as [c'|k' v']; cbn [flat_map piece_in app] in *.
    + injection e as <- e. f_equal. apply IH; assumption.
    + exfalso. destruct hq as (l1 & l2 & ek & _). apply (hp k' v' (flat_map piece_in qs)); [rewrite ek; apply in_app_iff; right; left; reflexivity|exact e].
    + exfalso. destruct hp as (l1 & l2 & ek & _). apply (hq k v (flat_map piece_in ps)); [rewrite ek; apply in_app_iff; right; left; reflexivity|congruence].
    + destruct hp as (l1 & l2 & ek & h1), hq as (m1 & m2 & ek' & h2).
      assert (same : (k, v) = (k', v')).
      { rewrite ek in ek'. apply app_eq_app in ek'. destruct ek' as (w & [(w1 & w2)|(w1 & w2)]).
        - destruct w as [|z w]; simpl in w2; [injection w2 as <- <-; reflexivity|]. injection w2 as <- w2. exfalso.
          apply (h1 k' v' (flat_map piece_in qs)); [rewrite w1; apply in_app_iff; right; left; reflexivity|exact e].
        - destruct w as [|z w]; simpl in w2; [injection w2 as <- <-; reflexivity|]. injection w2 as <- w2. exfalso.
          apply (h2 k v (flat_map piece_in ps)); [rewrite w1; apply in_app_iff; right; left; reflexivity|congruence]. }
      injection same as <- <-. apply app_inv_head in e. f_equal. apply IH; assumption.
Qed.

(** * split_string *)
Lemma split_any_nonempty d s : split_any d s <> [].
Proof. destruct s as [|x s]; simpl; [discriminate|]. destruct (split_any d s); [discriminate|]. destruct (mem x d); discriminate. Qed.
Lemma split_any_free d s : forall w x, In w (split_any d s) -> In x w -> ~ In x d.
Proof.
  induction s as [|y s IH]; intros w x; simpl; [intros [<-|[]] []|].
  destruct (split_any d s) as [|w0 ws] eqn:e; [destruct (split_any_nonempty _ _ e)|].
  destruct (mem_spec EqDec_ascii y d) as [i|n].
  - intros [<-|h] hx; [destruct hx|]. eapply IH; eassumption.
  - intros [<-|h] hx.
    + destruct hx as [<-|hx]; [exact n|]. eapply IH; [left; reflexivity|exact hx].
    + eapply IH; [right; exact h|exact hx].
Qed.
Lemma split_any_concat d s : concat (split_any d s) = filter (fun x => negb (mem x d)) s.
Proof.
  induction s as [|y s IH]; simpl; [reflexivity|]. destruct (split_any d s) as [|w0 ws] eqn:e; [destruct (split_any_nonempty _ _ e)|].
  destruct (mem y d); simpl; simpl in IH; rewrite IH; reflexivity.
Qed.
Lemma split_any_count d s : length (split_any d s) = S (length (filter (fun x => mem x d) s)).
Proof.
  induction s as [|y s IH]; simpl; [reflexivity|]. destruct (split_any d s) as [|w0 ws] eqn:e; [destruct (split_any_nonempty _ _ e)|].
  destruct (mem y d); simpl; simpl in IH; rewrite <- IH; reflexivity.
Qed.
(** interleaving the pieces with the delimiters met gives the text back *)
Fixpoint weave (ws : list (list ascii)) (ds : list ascii) : list ascii :=
  match ws, ds with
  | w :: ws', d :: ds' => w ++ d :: weave ws' ds'
  | w :: _, [] => w
  | [], _ => []
  end.
Lemma split_any_weave d s : weave (split_any d s) (filter (fun x => mem x d) s) = s.
Proof.
  induction s as [|y s IH]; [reflexivity|]. cbn [split_any filter].
  destruct (split_any d s) as [|w0 ws] eqn:e; [destruct (split_any_nonempty _ _ e)|].
  destruct (mem y d); [change (weave ([] :: w0 :: ws) (y :: filter (fun x => mem x d) s)) with (y :: weave (w0 :: ws) (filter (fun x => mem x d) s)); rewrite IH; reflexivity|].
  destruct (filter (fun x => mem x d) s) as [|d0 ds]; cbn [weave app] in *; congruence.
Qed.
