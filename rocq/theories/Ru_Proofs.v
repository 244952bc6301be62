From Verif Require Import Base Coll_Model Coll_Proofs Str_Model Ru_Model Ru_Spec.
From Coq Require Import Lia Arith.
Local Open Scope list_scope.
Local Open Scope char_scope.

Lemma split_prefixed w l : ~ In "/" w -> Names l -> split_char "/" (w ++ path_of l) = w :: l.
Proof.
  revert w. induction l as [|s l IH]; intros w hw hl; cbn [path_of flat_map].
  - rewrite app_nil_r. apply split_char_free. exact hw.
  - cbn [app]. rewrite split_char_app by exact hw. f_equal. apply IH; [apply (hl s); left; reflexivity|].
    intros x i. apply hl. right. exact i.
Qed.
Lemma split_join L : L <> [] -> (forall s, In s L -> ~ In "/" s) -> split_char "/" (ljoin ["/"] L) = L.
Proof.
  induction L as [|s L IH]; intros ne h; [congruence|]. destruct L as [|s' L].
  - cbn [ljoin]. apply split_char_free. apply h. left. reflexivity.
  - change (ljoin ["/"] (s :: s' :: L)) with (s ++ "/" :: ljoin ["/"] (s' :: L)). rewrite split_char_app by (apply h; left; reflexivity).
    f_equal. apply IH; [discriminate|]. intros x i. apply h. right. exact i.
Qed.
Lemma name_beq s : Name s -> beq s dot = false /\ beq s dots = false /\ nonempty s = true.
Proof.
  intros (h1 & _ & h2 & h3). repeat split; [apply beq_false; exact h2|apply beq_false; exact h3|]. destruct s; [congruence|reflexivity].
Qed.
Lemma norm_names acc l : Names l -> norm acc l = rev acc ++ l.
Proof.
  revert acc. induction l as [|s l IH]; intros acc h; cbn [norm]; [rewrite app_nil_r; reflexivity|].
  pose proof (h s (or_introl eq_refl)) as hs. destruct (name_beq s hs) as (e1 & e2 & _). destruct s as [|c s]; [destruct hs; congruence|].
  rewrite e1, e2, IH; [|intros x i; apply h; right; exact i]. cbn [rev]. rewrite <- app_assoc. reflexivity.
Qed.
Lemma abspath_names cwd l : Names l -> abspath cwd ("." :: path_of l) = cwd ++ l.
Proof.
  intros h. unfold abspath. change ("." :: path_of l) with (["."] ++ path_of l). rewrite split_prefixed; [|intros [i|[]]; discriminate i|exact h].
  change (norm (rev cwd) (["."] :: l)) with (norm (rev cwd) l). rewrite norm_names by exact h. rewrite rev_involutive. reflexivity.
Qed.

(** * dirname *)
Lemma upto_none x : ~ In "/" x -> upto_slash x = [].
Proof. induction x as [|c x IH]; intros h; cbn [upto_slash]; [reflexivity|]. rewrite IH by (intros i; apply h; right; exact i).
  destruct (beq c "/") eqn:e; [|reflexivity]. apply beq_true in e. destruct h. left. exact e. Qed.
Lemma upto_last s x : ~ In "/" x -> upto_slash (s ++ "/" :: x) = s ++ ["/"].
Proof.
  intros h. induction s as [|c s IH]; cbn [app upto_slash]; [rewrite upto_none by exact h; reflexivity|].
  rewrite IH. destruct (s ++ ["/"]) eqn:e; [destruct s; discriminate e|reflexivity].
Qed.
Lemma rstrip_slash_last s : rstrip_slash (s ++ ["/"]) = rstrip_slash s.
Proof. induction s as [|c s IH]; cbn [app rstrip_slash]; [reflexivity|]. rewrite IH. reflexivity. Qed.
Lemma rstrip_id s c : c <> "/" -> rstrip_slash (s ++ [c]) = s ++ [c].
Proof.
  intros h. induction s as [|d s IH]; cbn [app rstrip_slash].
  - rewrite (proj2 (beq_false _ _ _) h). reflexivity.
  - rewrite IH. destruct (s ++ [c]) eqn:e; [destruct s; discriminate e|reflexivity].
Qed.
Lemma path_snoc d x : path_of (d ++ [x]) = path_of d ++ "/" :: x.
Proof. unfold path_of. rewrite flat_map_app. cbn [flat_map]. rewrite app_nil_r. reflexivity. Qed.
Lemma path_ends d x : Name x -> exists s c, path_of (d ++ [x]) = s ++ [c] /\ c <> "/".
Proof.
  intros (h1 & h2 & _). rewrite path_snoc. destruct (exists_last h1) as (y & c & ->). exists (path_of d ++ "/" :: y), c. split.
  - rewrite <- app_assoc. reflexivity.
  - intros ->. apply h2. apply in_or_app. right. left. reflexivity.
Qed.
Lemma abs_dirname cwd b : Names b -> abspath cwd ("." :: dirname (path_of b)) = cwd ++ dir_of b.
Proof.
  intros h. destruct b as [|b0 b'].
  { cbn [path_of flat_map dir_of removelast]. rewrite app_nil_r. change (dirname []) with (@nil ascii).
    change ("." :: []) with ("." :: path_of []). rewrite abspath_names by (intros s []). apply app_nil_r. }
  destruct (@exists_last _ (b0 :: b') ltac:(discriminate)) as (d & x & e). rewrite e in *. clear e.
  assert (hx : Name x) by (apply h; apply in_or_app; right; left; reflexivity).
  assert (hd : Names d) by (intros s i; apply h; apply in_or_app; left; exact i).
  unfold dir_of. rewrite removelast_last. unfold dirname. rewrite path_snoc, upto_last by (apply hx). rewrite rstrip_slash_last.
  destruct d as [|d0 d'].
  - cbn [path_of flat_map rstrip_slash app]. rewrite app_nil_r.
    unfold abspath. cbn. change (norm (rev cwd) [["."]; []]) with (rev (rev cwd)). apply rev_involutive.
  - destruct (@exists_last _ (d0 :: d') ltac:(discriminate)) as (d2 & y & e). rewrite e in *. clear e.
    assert (hy : Name y) by (apply hd; apply in_or_app; right; left; reflexivity).
    destruct (path_ends d2 y hy) as (s & c & es & hc). rewrite es, rstrip_id by exact hc. rewrite <- es.
    destruct (path_of (d2 ++ [y])) as [|p ps] eqn:ep; [exfalso; destruct s; discriminate es|]. rewrite <- ep. apply abspath_names. exact hd.
Qed.

(** * the common part *)
Lemma common_app c a b : common (c ++ a) (c ++ b) = length c + common a b.
Proof. induction c as [|x c IH]; cbn [app common length]; [reflexivity|]. rewrite (beq_refl _ x), IH. reflexivity. Qed.
Lemma common_split a b : exists c x y, a = c ++ x /\ b = c ++ y /\ common a b = length c
  /\ (x = [] \/ y = [] \/ exists u v x' y', x = u :: x' /\ y = v :: y' /\ u <> v).
Proof.
  revert b. induction a as [|u a IH]; intros b; cbn [common].
  - exists [], [], b. repeat split. left. reflexivity.
  - destruct b as [|v b]; [exists [], (u :: a), []; repeat split; right; left; reflexivity|].
    destruct (beq u v) eqn:e.
    + apply beq_true in e. subst v. destruct (IH b) as (c & x & y & -> & -> & ec & h). exists (u :: c), x, y. cbn [length]. rewrite ec. repeat split. exact h.
    + apply beq_false in e. exists [], (u :: a), (v :: b). repeat split. right. right. exists u, v, a, b. repeat split. exact e.
Qed.
Lemma relpath_names cwd t b c x y : Names t -> Names b -> dir_of b = c ++ x -> t = c ++ y ->
  (x = [] \/ y = [] \/ exists u v x' y', x = u :: x' /\ y = v :: y' /\ u <> v) ->
  relpath cwd ("." :: path_of t) ("." :: dirname (path_of b)) = match repeat dots (length x) ++ y with [] => dot | l => ljoin ["/"] l end.
Proof.
  intros ht hb ed et hd. unfold relpath. rewrite abs_dirname, abspath_names by assumption. rewrite common_app, ed, et.
  assert (ec : common (c ++ x) (c ++ y) = length c).
  { rewrite common_app. destruct hd as [-> |[-> |(u & v & x' & y' & -> & -> & ne)]]; [cbn; lia|destruct x; cbn; lia|].
    cbn [common]. rewrite (proj2 (beq_false _ _ _) ne). lia. }
  rewrite ec. rewrite !app_length.
  replace (length cwd + (length c + length x) - (length cwd + length c)) with (length x) by lia.
  replace (skipn (length cwd + length c) (cwd ++ c ++ y)) with y; [reflexivity|].
  rewrite app_assoc, <- app_length, skipn_app, skipn_all, Nat.sub_diag. reflexivity.
Qed.

(** * urljoin *)
Lemma resolve_names acc l r : Names l -> resolve acc (l ++ r) = resolve (rev l ++ acc) r.
Proof.
  revert acc. induction l as [|s l IH]; intros acc h; [reflexivity|]. cbn [app resolve].
  destruct (name_beq s (h s (or_introl eq_refl))) as (e1 & e2 & _). rewrite e1, e2, IH by (intros x i; apply h; right; exact i).
  cbn [rev]. rewrite <- app_assoc. reflexivity.
Qed.
Lemma resolve_dots acc k r : k <= length acc -> resolve acc (repeat dots k ++ r) = resolve (skipn k acc) r.
Proof.
  revert acc. induction k as [|k IH]; intros acc h; [reflexivity|]. destruct acc as [|a acc]; [cbn in h; lia|].
  cbn [repeat app resolve]. rewrite (beq_refl _ dots). cbn [skipn]. apply IH. cbn in h. lia.
Qed.
Lemma inner_filter_id x l : (forall s, In s l -> nonempty s = true) -> inner_filter (x :: l) = x :: l.
Proof.
  intros h. cbn [inner_filter]. destruct l as [|y l]; [reflexivity|]. f_equal.
  destruct (@exists_last _ (y :: l) ltac:(discriminate)) as (d & z & e). rewrite e in *. rewrite removelast_last, last_last.
  rewrite (filter_all nonempty d); [reflexivity|]. intros s i. apply h. apply in_or_app. left. exact i.
Qed.
Lemma ljoin_root l : l <> [] -> ljoin ["/"] ([] :: l) = path_of l.
Proof.
  induction l as [|s l IH]; intros ne; [congruence|]. destruct l as [|s' l].
  - cbn. rewrite app_nil_r. reflexivity.
  - change (ljoin ["/"] ([] :: s :: s' :: l)) with ("/" :: s ++ "/" :: ljoin ["/"] (s' :: l)).
    change (path_of (s :: s' :: l)) with ("/" :: s ++ path_of (s' :: l)). rewrite <- IH by discriminate. reflexivity.
Qed.
Lemma url_join_relative base c s : c <> "/" -> url_join base (c :: s) =
  let parts := split_char "/" base in
  let parts := if nonempty (last parts []) then removelast parts else parts in
  let segs := inner_filter (parts ++ split_char "/" (c :: s)) in
  let out := resolve [] segs ++ (if beq (last segs []) dot || beq (last segs []) dots then [[]] else []) in
  match ljoin ["/"] out with [] => ["/"] | r => r end.
Proof. intros h. destruct c as [[] [] [] [] [] [] [] []]; try reflexivity. destruct h. reflexivity. Qed.
Lemma join_segments b L : Names b -> L <> [] -> (forall s, In s L -> s <> [] /\ ~ In "/" s) ->
  url_join (path_of b) (ljoin ["/"] L) =
  match ljoin ["/"] (resolve ([[]]) (dir_of b ++ L) ++ (if beq (last L []) dot || beq (last L []) dots then [[]] else [])) with [] => ["/"] | r => r end.
Proof.
  intros hb ne hL.
  assert (ej : exists c s, ljoin ["/"] L = c :: s /\ c <> "/").
  { destruct L as [|s L]; [congruence|]. destruct (hL s (or_introl eq_refl)) as [h1 h2]. destruct s as [|c s]; [congruence|].
    exists c. destruct L as [|s' L]; [exists s|exists (s ++ "/" :: ljoin ["/"] (s' :: L))]; (split; [reflexivity|]); intros ->; apply h2; left; reflexivity. }
  destruct ej as (c & s & ej & hc).
  assert (eparts : (if nonempty (last (split_char "/" (path_of b)) []) then removelast (split_char "/" (path_of b)) else split_char "/" (path_of b)) = [] :: dir_of b).
  { change (path_of b) with ([] ++ path_of b). rewrite split_prefixed; [|intros []|exact hb]. unfold dir_of.
    destruct b as [|b0 b']; [reflexivity|]. destruct (@exists_last _ (b0 :: b') ltac:(discriminate)) as (d & x & e). rewrite e in *. change ([] :: d ++ [x]) with (([] :: d) ++ [x]). rewrite last_last, !removelast_last.
    assert (hx : Name x) by (apply hb; apply in_or_app; right; left; reflexivity).
    destruct (name_beq x hx) as (_ & _ & ->). reflexivity. }
  rewrite ej, url_join_relative by exact hc. cbv zeta. rewrite eparts, <- ej. rewrite split_join by (try exact ne; intros x i; apply hL; exact i).
  assert (ef : inner_filter (([] :: dir_of b) ++ L) = [] :: dir_of b ++ L).
  { cbn [app]. apply inner_filter_id. intros x i. apply in_app_or in i. destruct i as [i|i].
    - assert (ib : In x b). { unfold dir_of in i. destruct b as [|b0 b']; [destruct i|]. destruct (@exists_last _ (b0 :: b') ltac:(discriminate)) as (d & z & e). rewrite e in *. rewrite removelast_last in i. apply in_or_app. left. exact i. }
      apply (name_beq x (hb x ib)).
    - destruct (hL x i) as [h _]. destruct x; [congruence|reflexivity]. }
  assert (el : last ([] :: dir_of b ++ L) [] = last L []).
  { destruct (exists_last ne) as (d & x & ->). rewrite app_comm_cons, app_assoc, !last_last. reflexivity. }
  rewrite ef. unfold str in *. rewrite el. reflexivity.
Qed.
