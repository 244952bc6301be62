From Verif Require Import Coll_Model Coll_Spec.
From Coq Require Import Sorted.

(** * to_list *)
Lemma to_list_shape x d : x <> VNone -> exists l, to_list x d = VList l.
Proof. intros n. destruct x; simpl; eauto; congruence. Qed.
Lemma to_list_idem x d d' : x <> VNone -> to_list (to_list x d) d' = to_list x d.
Proof. intros n. destruct x; simpl; try reflexivity; congruence. Qed.
Lemma to_list_round l d : l <> [] -> (forall x, In x l -> x <> VNone /\ is_sequence x = false) ->
  to_list (to_none_single_list (VList l)) d = VList l.
Proof.
  intros ne h. unfold to_none_single_list. cbn [to_list]. destruct l as [|x [|y l]]; [congruence| |reflexivity].
  destruct (h x (or_introl eq_refl)) as (n & s). destruct x; simpl in *; try discriminate; try reflexivity; congruence.
Qed.

(** * get_descendant *)
Lemma get_descendant_at obj keys v : keys <> [] -> At obj keys v ->
  (forall p q w, keys = p ++ q -> p <> [] -> q <> [] -> At obj p w -> truthy w = true) ->
  get_descendant obj keys = Ok v.
Proof.
  intros ne h. induction h as [w|o k c ks v e h IH]; [congruence|]. intros t. cbn [get_descendant]. rewrite e.
  destruct ks as [|k2 ks]; [inversion h; reflexivity|].
  rewrite (t [k] (k2 :: ks) c eq_refl) by (discriminate || (econstructor; [exact e|constructor])).
  apply IH; [discriminate|]. intros p q w eq np nq hp. apply (t (k :: p) q w); [simpl; congruence|discriminate|exact nq|].
  econstructor; eassumption.
Qed.
Lemma get_descendant_cases keys : keys <> [] -> forall obj, exists r, get_descendant obj keys = Ok r /\
  (At obj keys r \/
   (r = VNone /\ exists p k q o e, keys = p ++ k :: q /\ At obj p o /\ getitem o k = Err e) \/
   (truthy r = false /\ exists p q, keys = p ++ q /\ p <> [] /\ q <> [] /\ At obj p r)).
Proof.
  induction keys as [|k ks IH]; [congruence|]. intros _ obj. cbn [get_descendant].
  destruct (getitem obj k) as [c|e] eqn:eg.
  - destruct ks as [|k2 ks]; [exists c; split; [reflexivity|left; econstructor; [exact eg|constructor]]|].
    destruct (truthy c) eqn:et.
    + destruct (IH ltac:(discriminate) c) as (r & er & cs). exists r. split; [exact er|].
      destruct cs as [h|[(-> & p & k' & q & o & e & eq & h & eg')|(t & p & q & eq & np & nq & h)]].
      * left. econstructor; eassumption.
      * right; left. split; [reflexivity|]. exists (k :: p), k', q, o, e. simpl. repeat split; [congruence| |exact eg'].
        econstructor; eassumption.
      * right; right. split; [exact t|]. exists (k :: p), q. simpl. repeat split; [congruence|discriminate|exact nq|]. econstructor; eassumption.
    + exists c. split; [reflexivity|]. right; right. split; [exact et|]. exists [k], (k2 :: ks). repeat split; try discriminate.
      econstructor; [exact eg|constructor].
  - exists VNone. split; [destruct ks; reflexivity|]. right; left. split; [reflexivity|]. exists [], k, ks, obj, e.
    repeat split; [constructor|exact eg].
Qed.
Lemma At_det o ks v : At o ks v -> forall w, At o ks w -> v = w.
Proof. induction 1 as [v|o k c ks v e h IH]; intros w hw; inversion hw as [|? ? c' ? ? e' h']; subst; [reflexivity|]. apply IH. congruence. Qed.

(** * split_path *)
Lemma split_char_nonempty c s : split_char c s <> [].
Proof. destruct s as [|x s]; simpl; [discriminate|]. destruct (split_char c s); [discriminate|]. destruct (beq x c); discriminate. Qed.
Lemma split_char_free c w : ~ In c w -> split_char c w = [w].
Proof.
  induction w as [|x w IH]; simpl; intros n; [reflexivity|]. rewrite IH by tauto.
  destruct (beq_spec EqDec_ascii x c); [tauto|reflexivity].
Qed.
Lemma split_char_app c w rest : ~ In c w -> split_char c (w ++ c :: rest) = w :: split_char c rest.
Proof.
  induction w as [|x w IH]; intros n.
  - cbn [app split_char]. rewrite beq_refl. destruct (split_char c rest) eqn:e; [destruct (split_char_nonempty _ _ e)|reflexivity].
  - cbn [app split_char]. rewrite IH by (simpl in n; tauto). destruct (beq_spec EqDec_ascii x c); [simpl in n; tauto|reflexivity].
Qed.

Definition sbr : list ascii := ["["; "]"]%char.
Lemma lstrip_id chars x s : ~ In x chars -> lstrip chars (x :: s) = x :: s.
Proof. intros n. simpl. apply (mem_not_In EqDec_ascii) in n. rewrite n. reflexivity. Qed.
Lemma lstrip_clean w rest : clean_word w -> w <> [] -> lstrip sbr (w ++ rest) = w ++ rest.
Proof.
  intros (_ & n1 & n2) ne. destruct w as [|x w]; [congruence|]. cbn [app]. apply lstrip_id. simpl in *. intuition congruence.
Qed.
Lemma clean_rev w : clean_word w -> clean_word (rev w).
Proof. unfold clean_word. rewrite <- !in_rev. tauto. Qed.
Lemma strip_clean w : clean_word w -> strip sbr w = w.
Proof.
  intros c. assert (d : w = [] \/ w <> []) by (destruct w; [left; reflexivity|right; discriminate]). destruct d as [->|ne]; [reflexivity|].
  unfold strip. rewrite <- (app_nil_r w) at 1. rewrite (lstrip_clean w []) by assumption. rewrite app_nil_r.
  rewrite <- (app_nil_r (rev w)). rewrite lstrip_clean; [rewrite app_nil_r; apply rev_involutive|apply clean_rev; exact c|].
  intros h. apply ne. rewrite <- (rev_involutive w), h. reflexivity.
Qed.
Lemma strip_closed w : clean_word w -> strip sbr (w ++ ["]"%char]) = w.
Proof.
  intros c. assert (d : w = [] \/ w <> []) by (destruct w; [left; reflexivity|right; discriminate]). destruct d as [->|ne]; [reflexivity|].
  unfold strip. rewrite lstrip_clean by assumption. rewrite rev_app_distr. cbn [rev app lstrip].
  change (mem "]"%char sbr) with true. cbn iota.
  rewrite <- (app_nil_r (rev w)). rewrite lstrip_clean; [rewrite app_nil_r; apply rev_involutive|apply clean_rev; exact c|].
  intros h. apply ne. rewrite <- (rev_involutive w), h. reflexivity.
Qed.

Definition clean_part (p : list ascii * list (list ascii)) : Prop := clean_word (fst p) /\ forall i, In i (snd p) -> clean_word i.

Lemma split_idx : forall idxs w, ~ In "["%char w -> (forall i, In i idxs -> clean_word i) ->
  split_char "[" (w ++ flat_map bracketed idxs) = w :: map (fun i => i ++ ["]"%char]) idxs.
Proof.
  induction idxs as [|i idxs IH]; intros w n h; simpl.
  - rewrite app_nil_r. apply split_char_free. exact n.
  - rewrite split_char_app by exact n. f_equal. apply IH.
    + rewrite in_app_iff. intros [a|[a|[]]]; [destruct (h i (or_introl eq_refl)) as (_ & c & _); exact (c a)|discriminate].
    + intros j a. apply h. right. exact a.
Qed.
Lemma part_words p : clean_part p -> map (strip sbr) (split_char "[" (render_part p)) = fst p :: snd p.
Proof.
  intros (cw & ci). unfold render_part. rewrite split_idx by (try exact ci; apply cw). cbn [map]. rewrite strip_clean by exact cw.
  f_equal. rewrite map_map. rewrite <- (map_id (snd p)) at 2. apply map_ext_in. intros i h. apply strip_closed, ci, h.
Qed.
Lemma part_nodot p : clean_part p -> ~ In "."%char (render_part p).
Proof.
  intros ((c & _) & ci). unfold render_part. rewrite in_app_iff. intros [h|h]; [exact (c h)|].
  apply in_flat_map in h. destruct h as (i & ii & h). unfold bracketed in h. destruct h as [h|h]; [discriminate|].
  apply in_app_iff in h. destruct h as [h|[h|[]]]; [exact (proj1 (ci i ii) h)|discriminate].
Qed.
Lemma split_path_render ps : ps <> [] -> (forall p, In p ps -> clean_part p) ->
  split_path (render_path ps) = flat_map (fun p => fst p :: snd p) ps.
Proof.
  intros ne h. unfold split_path. fold sbr. induction ps as [|p ps IH]; [congruence|]. destruct ps as [|p2 ps].
  - cbn [render_path]. rewrite split_char_free by (apply part_nodot, h; left; reflexivity). cbn [flat_map].
    rewrite part_words by (apply h; left; reflexivity). reflexivity.
  - change (render_path (p :: p2 :: ps)) with (render_part p ++ "."%char :: render_path (p2 :: ps)).
    rewrite split_char_app by (apply part_nodot, h; left; reflexivity). cbn [flat_map].
    rewrite part_words by (apply h; left; reflexivity). f_equal. apply IH; [discriminate|]. intros q i. apply h. right. exact i.
Qed.

(** * nested_dict_iter *)
Fixpoint leaf_paths (d : pyval) : list (list string * pyval) :=
  match d with
  | VDict l =>
      flat_map (fun p =>
        match snd p with
        | VDict _ => map (fun q => (fst p :: fst q, snd q)) (leaf_paths (snd p))
        | v => [([fst p], v)]
        end) l
  | _ => []
  end.

Lemma leaf_paths_In d : forall p v, In (p, v) (leaf_paths d) <-> LeafAt d p v.
Proof.
  induction d as [| | | | | |l IH|] using pyval_ind'; intros p v; simpl; try (split; [tauto|intros h; inversion h]).
  rewrite in_flat_map. split.
  - intros ([k x] & i & h). cbn [fst snd] in h. destruct (is_dict x) eqn:e.
    + destruct x; try discriminate. apply in_map_iff in h. destruct h as ([p' v'] & e' & h). injection e' as <- <-.
      apply (IH _ _ i) in h. eapply Leaf_in; eassumption.
    + assert (h' : In (p, v) [([k], x)]) by (destruct x; exact h || discriminate). destruct h' as [h'|[]]. injection h' as <- <-.
      apply Leaf_here; assumption.
  - intros h. inversion h as [l0 k v0 i e|l0 k x p0 v0 i h0]; subst.
    + exists (k, v). split; [exact i|]. cbn [fst snd]. destruct v; try discriminate; left; reflexivity.
    + exists (k, x). split; [exact i|]. cbn [fst snd]. assert (is_dict x = true) by (inversion h0; reflexivity).
      destruct x; try discriminate. apply in_map_iff. exists (p0, v). split; [reflexivity|]. apply (IH _ _ i). exact h0.
Qed.
Lemma leaf_paths_nonempty d p v : In (p, v) (leaf_paths d) -> p <> [].
Proof. intros h. apply leaf_paths_In in h. inversion h; discriminate. Qed.

Lemma nested_dict_iter_names d : forall sep, nested_dict_iter sep d = map (fun q => (path_name sep (fst q), snd q)) (leaf_paths d).
Proof.
  induction d as [| | | | | |l IH|] using pyval_ind'; intros sep; try reflexivity.
  simpl. induction l as [|[k x] l IHl]; simpl; [reflexivity|]. rewrite map_app. f_equal.
  2:{ apply IHl. intros k' x' i. apply (IH k' x'). right. exact i. }
  assert (g := IH k x (or_introl eq_refl)). destruct x; try reflexivity. rewrite (g "."%string), !map_map. apply map_ext_in.
  intros [p v] i. cbn [fst snd]. apply leaf_paths_nonempty in i. destruct p as [|w p]; [congruence|].
  cbn [path_name]. destruct p; reflexivity.
Qed.

Lemma StronglySorted_app {A} (R : A -> A -> Prop) l1 l2 : StronglySorted R l1 -> StronglySorted R l2 ->
  (forall x y, In x l1 -> In y l2 -> R x y) -> StronglySorted R (l1 ++ l2).
Proof.
  induction l1 as [|x l1 IH]; simpl; intros s1 s2 h; [exact s2|]. inversion s1 as [|? ? s f]; subst. constructor.
  - apply IH; auto.
  - apply Forall_app. split; [exact f|]. apply Forall_forall. intros y i. apply h; auto.
Qed.
Lemma StronglySorted_map_iff {A B} (R : B -> B -> Prop) (f : A -> B) l :
  StronglySorted (fun x y => R (f x) (f y)) l -> StronglySorted R (map f l).
Proof. induction 1 as [|x l s IH h]; simpl; constructor; [exact IH|]. apply Forall_forall. intros y i. apply in_map_iff in i.
       destruct i as (z & <- & i). rewrite Forall_forall in h. auto. Qed.
Lemma StronglySorted_impl {A} (R S : A -> A -> Prop) l : (forall x y, In x l -> In y l -> R x y -> S x y) -> StronglySorted R l -> StronglySorted S l.
Proof. intros h s. induction s as [|x l s IH f]; constructor.
       - apply IH. intros a b ia ib. apply h; right; assumption.
       - rewrite Forall_forall in *. intros y i. apply h; [left; reflexivity|right; exact i|auto]. Qed.

Lemma leaf_head l p v : In (p, v) (leaf_paths (VDict l)) -> exists k p' x, p = k :: p' /\ In (k, x) l.
Proof. intros h. apply leaf_paths_In in h. inversion h; subst; eauto. Qed.

Lemma leaf_paths_sorted d : vwf d -> StronglySorted (PathBefore d) (map fst (leaf_paths d)).
Proof.
  induction d as [| | | | | |l IH|] using pyval_ind'; intros wf; try constructor.
  apply vwf_dict in wf. destruct wf as (_ & wf).
  assert (g : forall post pre, l = pre ++ post -> StronglySorted (PathBefore (VDict l)) (map fst (leaf_paths (VDict post)))).
  { induction post as [|[k x] post IHp]; intros pre e; [constructor|].
    assert (unf : leaf_paths (VDict ((k, x) :: post)) =
      (match x with VDict _ => map (fun q => (k :: fst q, snd q)) (leaf_paths x) | v => [([k], v)] end) ++ leaf_paths (VDict post))
      by (destruct x; reflexivity).
    rewrite unf.
    assert (i : In (k, x) l) by (rewrite e; apply in_app_iff; right; left; reflexivity).
    rewrite map_app. apply StronglySorted_app.
    - assert (s := IH k x i (wf k x i)). destruct x; try (constructor; [constructor|constructor]).
      rewrite map_map. cbn [fst]. rewrite <- (map_map fst (cons k)). apply StronglySorted_map_iff.
      eapply StronglySorted_impl; [|exact s]. intros a b _ _ h. eapply PB_inside; [exact i|exact h].
    - apply (IHp (pre ++ [(k, x)])). rewrite e, <- app_assoc. reflexivity.
    - intros p q ip iq. apply in_map_iff in iq. destruct iq as ([q' w] & <- & iq). cbn [fst].
      destruct (leaf_head _ _ _ iq) as (k2 & q2 & x2 & -> & i2).
      assert (hp : exists p', p = k :: p').
      { apply in_map_iff in ip. destruct ip as ([p' u] & <- & ip). destruct x; cbn [fst] in *;
          try (destruct ip as [ip|[]]; injection ip as <- _; eauto).
        apply in_map_iff in ip. destruct ip as (z & ez & _). injection ez as <- _. eauto. }
      destruct hp as (p' & ->). apply in_split in i2. destruct i2 as (m1 & m2 & ->). rewrite e. apply PB_differ. }
  exact (g l [] eq_refl).
Qed.

Lemma PathBefore_irrefl d : vwf d -> forall p, ~ PathBefore d p p.
Proof.
  induction d as [| | | | | |l IH|] using pyval_ind'; intros wf p h; inversion h as [l1 l2 l3 k1 v1 k2 v2 p0 q0|l0 k x p0 q0 i h0]; subst.
  - apply vwf_dict in wf. destruct wf as (nd & _). rewrite map_app in nd. simpl in nd. apply NoDup_remove_2 in nd.
    apply nd. rewrite in_app_iff. right. rewrite map_app, in_app_iff. right. left. reflexivity.
  - apply vwf_dict in wf. destruct wf as (_ & wf). exact (IH k x i (wf k x i) p0 h0).
Qed.
Lemma leaf_paths_NoDup d : vwf d -> NoDup (map fst (leaf_paths d)).
Proof.
  intros wf. assert (s := leaf_paths_sorted d wf). induction s as [|p l s IH f]; constructor; [|exact IH].
  intros i. rewrite Forall_forall in f. exact (PathBefore_irrefl d wf p (f p i)).
Qed.

(** names identify paths when keys contain no dot *)
Lemma append_dot_split a b r s : ~ has_char "." a -> ~ has_char "." b -> (a ++ "." ++ r = b ++ "." ++ s)%string -> a = b /\ r = s.
Proof.
  unfold has_char. revert b. induction a as [|x a IH]; intros [|y b] na nb e; simpl in *.
  - injection e as e. auto.
  - exfalso. injection e as e1 e2. apply nb. left. congruence.
  - exfalso. injection e as e1 e2. apply na. left. congruence.
  - injection e as e1 e2. destruct (IH b) as (e3 & e4); [tauto|tauto|exact e2|]. split; congruence.
Qed.
Lemma append_dot_absurd a b r : ~ has_char "." b -> (a ++ "." ++ r = b)%string -> False.
Proof.
  unfold has_char. intros nb <-. apply nb. induction a as [|x a IH]; simpl; [left; reflexivity|right]. apply IH. intros h. apply nb. simpl. right. exact h.
Qed.
Lemma join_inj : forall p q, p <> [] -> q <> [] -> (forall k, In k p -> ~ has_char "." k) -> (forall k, In k q -> ~ has_char "." k) ->
  join "." p = join "." q -> p = q.
Proof.
  induction p as [|a p IH]; intros q np nq hp hq e; [congruence|]. destruct q as [|b q]; [congruence|].
  destruct p as [|a2 p], q as [|b2 q]; cbn [join] in e.
  - congruence.
  - exfalso. eapply append_dot_absurd; [|symmetry; exact e]. apply hp. left. reflexivity.
  - exfalso. eapply append_dot_absurd; [|exact e]. apply hq. left. reflexivity.
  - apply append_dot_split in e; [|apply hp; left; reflexivity|apply hq; left; reflexivity]. destruct e as (-> & e). f_equal.
    apply IH; [discriminate|discriminate| | |exact e]; intros k i; [apply hp|apply hq]; right; exact i.
Qed.
Lemma path_name_dot p : path_name "." p = join "." p.
Proof. destruct p as [|a [|b p]]; reflexivity. Qed.

Lemma nested_names_NoDup d : vwf d -> (forall p v k, LeafAt d p v -> In k p -> ~ has_char "." k) ->
  NoDup (map fst (nested_dict_iter "." d)).
Proof.
  intros wf h. rewrite nested_dict_iter_names, map_map. cbn [fst].
  assert (nd := leaf_paths_NoDup d wf).
  assert (el : forall q, In q (leaf_paths d) -> fst q <> [] /\ forall k, In k (fst q) -> ~ has_char "." k).
  { intros [p v] i. cbn [fst]. split; [eapply leaf_paths_nonempty; exact i|]. intros k. eapply h. apply leaf_paths_In. exact i. }
  revert nd el. generalize (leaf_paths d). clear. induction l as [|[p v] l IH]; simpl; intros nd el; [constructor|].
  inversion nd as [|? ? ni nd']; subst. constructor; [|apply IH; [exact nd'|intros q i; apply el; right; exact i]].
  intros i. apply in_map_iff in i. destruct i as ([q w] & e & i). cbn [fst] in e. rewrite !path_name_dot in e.
  destruct (el _ (or_introl eq_refl)) as (a1 & a2). destruct (el _ (or_intror i)) as (b1 & b2). cbn [fst] in *.
  apply join_inj in e; [|assumption..]. subst q. apply ni. apply (in_map fst) in i. exact i.
Qed.

(** * filter_collection *)
Lemma filter_but l but rec : but <> [] ->
  filter_collection (VDict l) [] but rec = Ok (Fresh (VDict (filter (fun p => negb (mem (fst p) but)) l))).
Proof. destruct but; [congruence|]. reflexivity. Qed.
