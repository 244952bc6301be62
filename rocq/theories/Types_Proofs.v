From Verif Require Import Types_Model Types_Spec Query_Proofs Str_Proofs Coll_Proofs.

Lemma lower_spells s w : str_lower s = w <-> Spells s w.
Proof.
  split.
  - intros <-. induction s as [|c s IH]; simpl; [constructor|]. unfold lower_ascii.
    destruct (Nat.leb_spec 65 (nat_of_ascii c)); destruct (Nat.leb_spec (nat_of_ascii c) 90); cbn [andb].
    + apply Sp_upper; [lia| |exact IH]. apply nat_ascii_embedding. lia.
    + apply Sp_same; [lia|exact IH].
    + apply Sp_same; [lia|exact IH].
    + apply Sp_same; [lia|exact IH].
  - induction 1 as [|c s w h _ IH|c d s w h1 h2 _ IH]; simpl; [reflexivity| |]; rewrite IH; f_equal; unfold lower_ascii.
    + destruct (Nat.leb_spec 65 (nat_of_ascii c)); destruct (Nat.leb_spec (nat_of_ascii c) 90); cbn [andb]; try reflexivity; lia.
    + destruct (Nat.leb_spec 65 (nat_of_ascii c)); destruct (Nat.leb_spec (nat_of_ascii c) 90); cbn [andb]; try lia.
      rewrite <- h2. apply ascii_nat_embedding.
Qed.

(** * strip *)
Lemma lstrip_head cs s x r : lstrip cs s = x :: r -> ~ In x cs.
Proof.
  induction s as [|y s IH]; simpl; [discriminate|]. destruct (mem_spec EqDec_ascii y cs) as [i|n]; [exact IH|].
  injection 1 as <- _. exact n.
Qed.
Lemma lstrip_suffix cs s : exists p, s = p ++ lstrip cs s /\ forall x, In x p -> In x cs.
Proof.
  induction s as [|y s IH]; simpl; [exists []; split; [reflexivity|intros ? []]|].
  destruct (mem_spec EqDec_ascii y cs) as [i|n].
  - destruct IH as (p & e & h). exists (y :: p). split; [simpl; congruence|]. intros x [<-|j]; [exact i|apply h, j].
  - exists []. split; [reflexivity|intros ? []].
Qed.
Lemma strip_trimmed w : trimmed (strip whitespace w).
Proof.
  unfold strip. set (l := lstrip whitespace w). split.
  - intros x r e. destruct (lstrip_suffix whitespace (rev l)) as (p & ep & hp).
    assert (el : l = rev (lstrip whitespace (rev l)) ++ rev p) by (rewrite <- rev_app_distr, <- ep, rev_involutive; reflexivity).
    rewrite e in el. simpl in el. subst l. exact (lstrip_head _ _ _ _ el).
  - intros r x e. apply (f_equal (@rev ascii)) in e. rewrite rev_involutive, rev_app_distr in e. simpl in e. exact (lstrip_head _ _ _ _ e).
Qed.
Lemma lstrip_fix cs w : (forall x r, w = x :: r -> ~ In x cs) -> lstrip cs w = w.
Proof. destruct w as [|x r]; [reflexivity|]. intros h. simpl. destruct (mem_spec EqDec_ascii x cs) as [i|n]; [destruct (h x r eq_refl i)|reflexivity]. Qed.
Lemma trimmed_strip w : trimmed w -> strip whitespace w = w.
Proof.
  intros [h1 h2]. unfold strip. rewrite (lstrip_fix _ w h1), lstrip_fix; [apply rev_involutive|].
  intros x r e. apply (h2 (rev r) x). apply (f_equal (@rev ascii)) in e. rewrite rev_involutive in e. exact e.
Qed.
Lemma strip_incl w x : In x (strip whitespace w) -> In x w.
Proof.
  unfold strip. intros h. apply in_rev in h. destruct (lstrip_suffix whitespace (rev (lstrip whitespace w))) as (p & e & _).
  assert (h' : In x (rev (lstrip whitespace w))) by (rewrite e; apply in_or_app; right; exact h). apply in_rev in h'.
  destruct (lstrip_suffix whitespace w) as (q & e' & _). rewrite e'. apply in_or_app; right; exact h'.
Qed.

(** splitting on one character what was joined with it *)
Lemma split_on_single d ws : ws <> [] -> (forall w, In w ws -> ~ In d w) -> split_on [d] (ljoin [d] ws) = ws.
Proof.
  intros ne free. unfold split_on.
  assert (G : forall fuel ws, ws <> [] -> (forall w, In w ws -> ~ In d w) -> length (ljoin [d] ws) < fuel ->
    split_on_loop fuel [d] (ljoin [d] ws) = ws).
  { clear. induction fuel as [|f IH]; intros ws ne free h; [lia|].
    destruct ws as [|[|x w] ws]; [contradiction| |].
    - destruct ws as [|w' ws]; [reflexivity|]. rewrite ljoin_cons in * by discriminate. cbn [app] in *.
      cbn [split_on_loop is_prefix]. rewrite beq_refl. cbn [andb is_prefix length skipn]. f_equal. apply IH; [discriminate| |cbn [length] in h; lia].
      intros; apply free; right; assumption.
    - assert (nx : x <> d) by (intros ->; apply (free _ (or_introl eq_refl)); left; reflexivity).
      assert (E : ljoin [d] ((x :: w) :: ws) = x :: ljoin [d] (w :: ws)) by (destruct ws; reflexivity).
      rewrite E in *. cbn [split_on_loop is_prefix]. destruct (beq_spec EqDec_ascii d x) as [e|_]; [congruence|]. cbn [andb].
      rewrite IH; [reflexivity|discriminate| |cbn [length] in h; lia].
      intros u [<-|i]; [intros i'; apply (free _ (or_introl eq_refl)); right; exact i'|apply free; right; exact i]. }
  apply G; auto.
Qed.

(** * enum *)
Lemma py_index_In {A} (l : list A) z v : py_index l z = Ok v -> In v l.
Proof.
  unfold py_index. destruct (Z.ltb _ 0); [discriminate|]. destruct (nth_error l _) eqn:e; [|discriminate].
  injection 1 as <-. eapply nth_error_In, e.
Qed.
Lemma enum_has_int_spec i enum : enum_has_int i enum = true <-> exists x, In x enum /\ num_of x = Some i.
Proof.
  unfold enum_has_int. rewrite existsb_exists. split; intros (x & h & e); exists x; (split; [exact h|]).
  - destruct (num_of x) as [j|]; [|discriminate]. apply Z.eqb_eq in e. congruence.
  - rewrite e. apply Z.eqb_refl.
Qed.
Lemma nth_error_ext {A} (l l' : list A) : (forall i, nth_error l i = nth_error l' i) -> l = l'.
Proof.
  revert l'. induction l as [|x l IH]; intros [|y l'] h; [reflexivity|discriminate (h 0)|discriminate (h 0)|].
  pose proof (h 0) as h0. simpl in h0. injection h0 as <-. f_equal. apply IH. intros i. exact (h (S i)).
Qed.
