(** C97: the commands that are listed, and whether they can be run. *)
From Coq Require Import Ascii Permutation Sorted.
From Verif Require Import Base Cli_Model Cli_Spec.
Local Open Scope char_scope.
Local Open Scope list_scope.

(** ** texts *)
Lemma starts_spec t : forall s, starts t s = true <-> exists r, s = t ++ r.
Proof.
  induction t as [|x t IH]; intros s; cbn [starts]; [split; [intros _; exists s; reflexivity | reflexivity]|].
  destruct s as [|y s]; [split; [discriminate | intros (r & e); discriminate]|]. rewrite andb_true_iff, (beq_true _ x y), IH. split.
  - intros (-> & r & ->). exists r. reflexivity.
  - intros (r & e). injection e as -> ->. split; [reflexivity | exists r; reflexivity].
Qed.
Lemma ends_spec t s : ends t s = true <-> exists r, s = r ++ t.
Proof.
  unfold ends. rewrite starts_spec. split; intros (r & e).
  - exists (rev r). apply (f_equal (@rev ascii)) in e. rewrite rev_app_distr, !rev_involutive in e. exact e.
  - exists (rev r). rewrite e, rev_app_distr. reflexivity.
Qed.
Lemma file_spec f : ends dot_py f && starts cmd_ f = true <-> exists stem, f = file_of stem.
Proof.
  rewrite andb_true_iff, starts_spec, ends_spec. unfold file_of, module_of. split.
  - intros ((r & e1) & (q & e2)). subst f. unfold cmd_, dot_py in e2.
    destruct r as [|a [|b [|c [|d r]]]]; cbn [app] in e2.
    1,2,3,4: repeat match type of e2 with _ :: _ = _ :: _ => injection e2; clear e2; intros e2 ?; subst; try discriminate | _ => discriminate end; discriminate.
    injection e2 as -> -> -> -> _. exists r. reflexivity.
  - intros (stem & ->). split; [exists (["c"; "m"; "d"; "_"] ++ stem) | exists (stem ++ dot_py)]; reflexivity.
Qed.
Lemma stem_of stem : firstn (length (file_of stem) - 4 - 3) (skipn 4 (file_of stem)) = stem.
Proof.
  unfold file_of, module_of. cbn [app skipn length]. rewrite app_length. cbn [length].
  replace (S (S (S (S (length stem + 3)))) - 4 - 3) with (length stem) by lia. rewrite firstn_app, Nat.sub_diag, firstn_all, firstn_O, app_nil_r. reflexivity.
Qed.
Lemma dashed_spec a : Dashed a (dasherize a).
Proof.
  induction a as [|x a IH]; [constructor|]. constructor; [|exact IH]. destruct (beq_spec _ x "_") as [-> | ne]; [left; split; reflexivity | right; split; [exact ne | reflexivity]].
Qed.
Lemma dashed_fun a b : Dashed a b -> b = dasherize a.
Proof.
  intros h. induction h as [|x y a b hxy h IH]; [reflexivity|]. change (dasherize (x :: a)) with ((if beq x "_" then "-" else x) :: dasherize a). rewrite <- IH.
  destruct hxy as [[-> ->] | [ne ->]]; [reflexivity|]. destruct (beq_spec _ x "_") as [-> | _]; [destruct (ne eq_refl) | reflexivity].
Qed.

(** ** sorting *)
Lemma text_le_spec a : forall b, text_le a b = true <-> Text_le a b.
Proof.
  induction a as [|x a IH]; intros b; cbn [text_le]; [split; [constructor | reflexivity]|].
  destruct b as [|y b]; [split; [discriminate | intros h; inversion h]|].
  destruct (Nat.ltb_spec (nat_of_ascii x) (nat_of_ascii y)) as [h1 | h1]; [split; [intros _; constructor; exact h1 | reflexivity]|].
  destruct (Nat.ltb_spec (nat_of_ascii y) (nat_of_ascii x)) as [h2 | h2].
  - split; [discriminate|]. intros h. inversion h; subst; lia.
  - assert (e : x = y) by (rewrite <- (ascii_nat_embedding x), <- (ascii_nat_embedding y); f_equal; lia). subst y. rewrite IH.
    split; [intros h; apply le_later; exact h | intros h; inversion h; subst; [lia | assumption]].
Qed.
Lemma text_le_total a : forall b, text_le a b = true \/ text_le b a = true.
Proof.
  induction a as [|x a IH]; intros b; [left; reflexivity|]. destruct b as [|y b]; [right; reflexivity|]. cbn [text_le].
  destruct (Nat.ltb (nat_of_ascii x) (nat_of_ascii y)) eqn:e1; [left; reflexivity|].
  destruct (Nat.ltb (nat_of_ascii y) (nat_of_ascii x)) eqn:e2; [right; reflexivity|]. apply IH.
Qed.
Lemma put_in_perm x l : Permutation (x :: l) (put_in x l).
Proof.
  induction l as [|y l IH]; [reflexivity|]. cbn [put_in]. destruct (text_le x y); [reflexivity|].
  rewrite perm_swap. apply perm_skip. exact IH.
Qed.
Lemma put_in_sorted x l : Sorted Text_le l -> Sorted Text_le (put_in x l).
Proof.
  induction l as [|y l IH]; intros h; cbn [put_in]; [repeat constructor|]. destruct (text_le x y) eqn:e.
  - constructor; [exact h|]. constructor. apply text_le_spec. exact e.
  - inversion h as [|? ? hs hd]; subst. constructor; [apply IH; exact hs|].
    assert (hyx : Text_le y x) by (apply text_le_spec; destruct (text_le_total x y) as [g | g]; [congruence | exact g]).
    destruct l as [|z l]; cbn [put_in]; [constructor; exact hyx|]. destruct (text_le x z); constructor; [exact hyx | inversion hd; assumption].
Qed.
Lemma sort_perm l : Permutation l (sort l).
Proof. induction l as [|x l IH]; [reflexivity|]. cbn [sort fold_right]. rewrite <- put_in_perm. apply perm_skip. exact IH. Qed.
Lemma sort_sorted l : Sorted Text_le (sort l).
Proof. induction l as [|x l IH]; [constructor|]. apply put_in_sorted. exact IH. Qed.

(** The commands listed are those of the files "cmd_*.py", one for each, with dashes for underscores, in order. *)
Theorem commands_listed files : Sorted Text_le (list_commands files) /\ exists cs, Commands files cs /\ Permutation cs (list_commands files).
Proof.
  split; [apply sort_sorted|]. eexists. split; [|apply sort_perm]. induction files as [|f fs IH]; cbn [flat_map]; [constructor|].
  destruct (ends dot_py f && starts cmd_ f) eqn:e.
  - apply file_spec in e. destruct e as (stem & ->). rewrite stem_of. cbn [app]. constructor; [apply dashed_spec | exact IH].
  - cbn [app]. constructor; [|exact IH]. intros stem h. assert (g : ends dot_py f && starts cmd_ f = true) by (apply file_spec; exists stem; exact h). congruence.
Qed.

(** ** the module a command is looked up in *)
Definition plain_char (c : ascii) : bool := negb (beq c "-") && negb (upper c).
Lemma upper_spec c : upper c = true <-> 65 <= nat_of_ascii c <= 90.
Proof. unfold upper, within. rewrite andb_true_iff, !Nat.leb_le. reflexivity. Qed.
Lemma underscore_plain_out s c : In c (underscore s) -> plain_char c = true.
Proof.
  unfold underscore. intros h. apply in_map_iff in h. destruct h as (d & <- & h). unfold swap in h. apply in_map_iff in h. destruct h as (e & <- & _).
  destruct e as [[] [] [] [] [] [] [] []]; vm_compute; reflexivity.
Qed.
Lemma no_upper_acronym s : forallb (fun c => negb (upper c)) s = true -> forall p, split_acronym p s = s.
Proof.
  induction s as [|c s IH]; intros h p; [reflexivity|]. cbn [forallb] in h. apply andb_true_iff in h. destruct h as [hc hs]. apply negb_true_iff in hc.
  cbn [split_acronym]. rewrite hc, andb_false_r. cbn [andb app]. rewrite IH by exact hs. reflexivity.
Qed.
Lemma no_upper_camel s : forallb (fun c => negb (upper c)) s = true -> forall p, split_camel p s = s.
Proof.
  induction s as [|c s IH]; intros h p; [reflexivity|]. cbn [forallb] in h. apply andb_true_iff in h. destruct h as [hc hs]. apply negb_true_iff in hc.
  cbn [split_camel]. rewrite hc, andb_false_r. cbn [app]. rewrite IH by exact hs. reflexivity.
Qed.
Lemma dash_upper c : upper (if beq c "_" then "-" else c) = upper c.
Proof. destruct c as [[] [] [] [] [] [] [] []]; vm_compute; reflexivity. Qed.
Lemma plain_back c : plain_char c = true -> to_lower (if beq (if beq c "_" then "-" else c) "-" then "_" else if beq c "_" then "-" else c) = c.
Proof. destruct c as [[] [] [] [] [] [] [] []]; vm_compute; congruence. Qed.
Lemma plain_spec s : Plain s <-> forallb plain_char s = true.
Proof.
  unfold Plain. rewrite forallb_forall. split; intros h c hc; specialize (h c hc); unfold plain_char in *.
  - destruct h as [h1 h2]. apply andb_true_iff. split; apply negb_true_iff; [apply (beq_false _ c "-"); exact h1|].
    destruct (upper c) eqn:e; [|reflexivity]. apply upper_spec in e. contradiction.
  - apply andb_true_iff in h. destruct h as [h1 h2]. apply negb_true_iff in h1, h2. split; [apply (beq_false _ c "-"); exact h1|].
    intros g. apply upper_spec in g. congruence.
Qed.
Lemma underscore_dasherize s : Plain s -> underscore (dasherize s) = s.
Proof.
  intros h. apply plain_spec in h. unfold underscore.
  assert (hu : forallb (fun c => negb (upper c)) (dasherize s) = true).
  { unfold dasherize, swap. rewrite forallb_forall. intros c hc. apply in_map_iff in hc. destruct hc as (d & <- & hd). rewrite dash_upper.
    rewrite forallb_forall in h. specialize (h d hd). unfold plain_char in h. apply andb_true_iff in h. apply h. }
  rewrite (no_upper_acronym _ hu), (no_upper_camel _ hu). unfold dasherize, swap. rewrite !map_map.
  induction s as [|c s IH]; [reflexivity|]. cbn [forallb map] in *. apply andb_true_iff in h. destruct h as [hc hs]. rewrite (plain_back c hc). f_equal.
  apply IH; [exact hs|]. apply andb_true_iff in hu. apply hu.
Qed.

(** The name listed for a file leads back to the module of that file exactly when the name of the file has neither a dash nor an upper
    case letter. *)
Theorem listed_name_leads_back stem c : Dashed stem c -> (cmd_ ++ underscore c = module_of stem <-> Plain stem).
Proof.
  intros h. rewrite (dashed_fun _ _ h). split.
  - intros e. apply app_inv_head in e. rewrite <- e. apply plain_spec, forallb_forall. apply underscore_plain_out.
  - intros hp. rewrite (underscore_dasherize stem hp). reflexivity.
Qed.

(** ** names in camel case *)
Definition low (c : ascii) : bool := lower c || digit c.
Lemma low_facts c : low c = true -> upper c = false /\ to_lower (if beq c "-" then "_" else c) = c.
Proof. destruct c as [[] [] [] [] [] [] [] []]; vm_compute; intros h; try discriminate h; split; reflexivity. Qed.
Lemma word_low w : Word w -> forallb low w = true /\ exists c d r, w = c :: d :: r.
Proof.
  destruct w as [|c [|d r]]; cbn [Word]; try contradiction. intros [hc hr].
  assert (hl : forall x, Small x \/ 48 <= nat_of_ascii x <= 57 -> low x = true).
  { intros x h. unfold low, lower, digit, within, Small in *. apply orb_true_iff. destruct h; [left | right]; apply andb_true_iff; split; apply Nat.leb_le; lia. }
  split; [|exists c, d, r; reflexivity]. rewrite Forall_forall in hr. apply forallb_forall. intros x [<- | hx]; [exact (hl c (or_introl hc)) | apply hl, hr, hx].
Qed.
Lemma big_facts big c : Small c -> nat_of_ascii big + 32 = nat_of_ascii c -> upper big = true /\ low big = false /\ to_lower (if beq big "-" then "_" else big) = c.
Proof.
  intros hs e. assert (hu : upper big = true) by (apply upper_spec; unfold Small in hs; lia).
  assert (hc : c = ascii_of_nat (nat_of_ascii big + 32)) by (rewrite e; symmetry; apply ascii_nat_embedding).
  split; [exact hu|]. rewrite hc. clear - hu. revert hu. destruct big as [[] [] [] [] [] [] [] []]; vm_compute; intros h; try discriminate h; split; reflexivity.
Qed.
Lemma acronym_low r : forallb low r = true -> forall p t, r <> [] -> split_acronym p (r ++ t) = r ++ split_acronym false t.
Proof.
  induction r as [|c r IH]; intros h p t hn; [destruct (hn eq_refl)|]. cbn [forallb] in h. apply andb_true_iff in h. destruct h as [hc hr].
  cbn [app split_acronym]. rewrite (proj1 (low_facts c hc)), andb_false_r. cbn [andb app]. f_equal. destruct r as [|d r]; [reflexivity|]. apply IH; [exact hr | discriminate].
Qed.
Lemma camel_low r : forallb low r = true -> forall p t, r <> [] -> split_camel p (r ++ t) = r ++ split_camel true t.
Proof.
  induction r as [|c r IH]; intros h p t hn; [destruct (hn eq_refl)|]. cbn [forallb] in h. apply andb_true_iff in h. destruct h as [hc hr].
  cbn [app split_camel]. rewrite (proj1 (low_facts c hc)), andb_false_r. cbn [app]. fold (low c). rewrite hc. f_equal. destruct r as [|d r]; [reflexivity|].
  apply IH; [exact hr | discriminate].
Qed.
Lemma map_low r : forallb low r = true -> map to_lower (swap "-" "_" r) = r.
Proof.
  induction r as [|c r IH]; intros h; [reflexivity|]. cbn [forallb] in h. apply andb_true_iff in h. destruct h as [hc hr].
  unfold swap in *. cbn [map]. rewrite (proj2 (low_facts c hc)), (IH hr). reflexivity.
Qed.
Lemma capped_split ws t : Capped ws t -> split_acronym false t = t /\ map to_lower (swap "-" "_" (split_camel true t)) = flat_map (cons "_") ws.
Proof.
  intros h. induction h as [|c big w ws t hw hb h [IH1 IH2]]; [split; reflexivity|].
  assert (hsc : Small c) by (destruct w as [|d r]; [destruct hw | apply hw]).
  destruct (word_low _ hw) as (hl & c0 & d & r & ew). injection ew as <- ew. cbn [forallb] in hl. apply andb_true_iff in hl. destruct hl as [_ hl].
  destruct (big_facts big c hsc hb) as (hu & hlow & hto). assert (hne : w <> []) by (rewrite ew; discriminate). cbn [app split_acronym split_camel]. split.
  - cbn [andb app]. rewrite (acronym_low w hl _ _ hne), IH1. reflexivity.
  - rewrite hu. cbn [andb app]. fold (low big). rewrite (camel_low w hl _ _ hne). unfold swap in *. cbn [map flat_map]. rewrite hto, !map_app, IH2.
    change (map to_lower (map (fun c => if beq c "-" then "_" else c) w)) with (map to_lower (swap "-" "_" w)). rewrite (map_low w hl). reflexivity.
Qed.
(** A name typed in camel case leads to the file named with underscores. *)
Theorem camel_case_names w ws t : Word w -> Capped ws t -> cmd_ ++ underscore (w ++ t) = module_of (w ++ flat_map (cons "_") ws).
Proof.
  intros hw hc. destruct (word_low w hw) as (hl & c & d & r & e). assert (hne : w <> []) by (rewrite e; discriminate). destruct (capped_split ws t hc) as [h1 h2].
  unfold underscore. rewrite (acronym_low w hl _ _ hne), h1, (camel_low w hl _ _ hne). unfold swap in *. rewrite !map_app, h2.
  change (map to_lower (map (fun c => if beq c "-" then "_" else c) w)) with (map to_lower (swap "-" "_" w)). rewrite (map_low w hl). reflexivity.
Qed.

(** So does one that begins with a capital; *)
Theorem capital_names w ws t : Capped (w :: ws) t -> cmd_ ++ underscore t = module_of (w ++ flat_map (cons "_") ws).
Proof.
  intros h. pose proof (proj1 (capped_split _ _ h)) as ha. inversion h as [|c big w' ws' t' hw hb ht]; subst. unfold underscore. rewrite ha. clear ha.
  assert (hsc : Small c) by (destruct w' as [|d r]; [destruct hw | apply hw]).
  destruct (word_low _ hw) as (hl & c0 & d & r & ew). injection ew as <- ew. cbn [forallb] in hl. apply andb_true_iff in hl. destruct hl as [_ hl].
  destruct (big_facts big c hsc hb) as (hu & hlow & hto). assert (hne : w' <> []) by (rewrite ew; discriminate).
  cbn [app split_camel andb]. rewrite (camel_low w' hl _ _ hne). pose proof (proj2 (capped_split _ _ ht)) as h2. unfold swap in *. cbn [map]. rewrite hto, !map_app, h2.
  change (map to_lower (map (fun c => if beq c "-" then "_" else c) w')) with (map to_lower (swap "-" "_" w')). rewrite (map_low w' hl). reflexivity.
Qed.
(** and one that is, or begins with, a word in capitals, which is kept whole. *)
Lemma shouted_facts c big : Small c -> nat_of_ascii big + 32 = nat_of_ascii c -> upper big = true /\ lower big = false /\ low big = false /\ to_lower (if beq big "-" then "_" else big) = c.
Proof.
  intros hs e. destruct (big_facts big c hs e) as (h1 & h2 & h3). repeat split; try assumption. unfold low in h2. apply orb_false_iff in h2. apply h2.
Qed.
Lemma shouted_acronym a b : Shouted a b -> forall p t, (forall d r, t = d :: r -> lower d = false) -> split_acronym p (b ++ t) = b ++ split_acronym (match b with [] => p | _ => true end) t.
Proof.
  intros h. induction h as [|c big a b [hc hb] h IH]; intros p t ht; [reflexivity|]. destruct (shouted_facts c big hc hb) as (h1 & h2 & h3 & h4).
  cbn [app split_acronym]. assert (e : (match b ++ t with d :: _ => lower d | [] => false end) = false).
  { destruct h as [|c' big' a b [hc' hb'] h]; cbn [app]; [destruct t as [|d r]; [reflexivity | exact (ht d r eq_refl)]|]. apply (shouted_facts c' big' hc' hb'). }
  rewrite e, andb_false_r. cbn [app]. f_equal. rewrite h1, (IH true t ht). destruct b; reflexivity.
Qed.
Lemma shouted_camel a b : Shouted a b -> forall t, split_camel false (b ++ t) = b ++ split_camel false t.
Proof.
  intros h. induction h as [|c big a b [hc hb] h IH]; intros t; [reflexivity|]. destruct (shouted_facts c big hc hb) as (h1 & h2 & h3 & h4).
  cbn [app split_camel andb]. fold (low big). rewrite h3, IH. reflexivity.
Qed.
Lemma shouted_map a b : Shouted a b -> map to_lower (swap "-" "_" b) = a.
Proof.
  intros h. induction h as [|c big a b [hc hb] h IH]; [reflexivity|]. unfold swap in *. cbn [map]. rewrite (proj2 (proj2 (proj2 (shouted_facts c big hc hb)))), IH. reflexivity.
Qed.
Theorem shouted_names a b : Shouted a b -> cmd_ ++ underscore b = module_of a.
Proof.
  intros h. unfold underscore, module_of. rewrite <- (app_nil_r b). rewrite (shouted_acronym a b h) by discriminate. cbn [split_acronym]. rewrite (shouted_camel a b h).
  cbn [split_camel]. rewrite app_nil_r, (shouted_map a b h). reflexivity.
Qed.
Theorem acronym_names a b c d w ws t : Shouted a b -> b <> [] -> Small d -> Capped ((c :: d :: w) :: ws) t ->
  cmd_ ++ underscore (b ++ t) = module_of (a ++ "_" :: (c :: d :: w) ++ flat_map (cons "_") ws).
Proof.
  intros hs nb hd h. inversion h as [|c' big w' ws' t' hw hb ht]; subst. assert (hsc : Small c) by apply hw.
  destruct (word_low _ hw) as (hl & _). cbn [forallb] in hl. apply andb_true_iff in hl. destruct hl as [_ hl]. change (forallb low (d :: w) = true) in hl.
  destruct (shouted_facts c big hsc hb) as (h1 & h2 & h3 & h4).
  assert (hne : d :: w <> []) by discriminate. destruct (capped_split _ _ ht) as [e1 e2].
  unfold underscore. rewrite (shouted_acronym a b hs) by (intros x r e; injection e as <- _; exact h2).
  assert (eb : (match b with [] => false | _ => true end) = true) by (destruct b; [congruence | reflexivity]). rewrite eb.
  assert (ea : split_acronym true ((big :: d :: w) ++ t') = "_" :: big :: (d :: w) ++ t').
  { change ((big :: d :: w) ++ t') with (big :: ((d :: w) ++ t')). cbn [split_acronym]. change ((d :: w) ++ t') with (d :: (w ++ t')) at 1.
    cbn iota. assert (ld : lower d = true) by (unfold lower, within; apply andb_true_iff; split; apply Nat.leb_le; unfold Small in hd; lia).
    rewrite h1, ld. cbn [andb app]. f_equal. f_equal. change (d :: w ++ t') with ((d :: w) ++ t'). rewrite (acronym_low (d :: w) hl _ _ hne), e1. reflexivity. }
  assert (ec : forall q, split_camel false ("_" :: big :: q) = "_" :: big :: split_camel false q).
  { intros q. cbn [split_camel]. change (upper "_") with false. change (lower "_" || digit "_") with false. fold (low big). rewrite h3. reflexivity. }
  rewrite ea, (shouted_camel a b hs), ec, (camel_low (d :: w) hl _ _ hne). clear ea ec. unfold swap in *. rewrite map_app, map_app. cbn [map].
  rewrite h4. rewrite (map_app _ (d :: w)), map_app, e2.
  change (map to_lower (map (fun c => if beq c "-" then "_" else c) b)) with (map to_lower (swap "-" "_" b)). rewrite (shouted_map a b hs).
  change (map to_lower (map (fun c => if beq c "-" then "_" else c) (d :: w))) with (map to_lower (swap "-" "_" (d :: w))). rewrite (map_low (d :: w) hl). reflexivity.
Qed.
(** A module without a command is an error, unlike a module that is not there. *)
Theorem module_without_command {C} (import : list ascii -> imported C) name :
  (get_command import name = Err AttributeError <-> import (module_of (underscore name)) = Module None \/ import (module_of (underscore name)) = Raised AttributeError) /\
  (get_command import name = Ok None <-> import (module_of (underscore name)) = NoModule).
Proof.
  unfold get_command. change (cmd_ ++ underscore name) with (module_of (underscore name)). destruct (import (module_of (underscore name))) as [[c|]| |e]; split; split; intros h;
    try discriminate h; try (destruct h; discriminate); auto; try (injection h as ->; auto); try congruence. destruct h as [h|h]; [discriminate | congruence].
Qed.

Lemma commands_in files cs : Commands files cs -> forall c, In c cs <-> exists stem, In (file_of stem) files /\ Dashed stem c.
Proof.
  intros h. induction h as [|stem c fs cs hd h IH | f fs cs hn h IH]; intros x.
  - split; [intros [] | intros (stem & [] & _)].
  - cbn [In]. rewrite IH. split.
    + intros [<- | (st & hs & hx)]; [exists stem; split; [left; reflexivity | exact hd] | exists st; split; [right; exact hs | exact hx]].
    + intros (st & [e | hs] & hx); [|right; exists st; split; assumption]. left. unfold file_of, module_of in e. apply app_inv_tail, app_inv_head in e. subst st.
      rewrite (dashed_fun _ _ hd), (dashed_fun _ _ hx). reflexivity.
  - rewrite IH. split; intros (st & hs & hx); exists st; [split; [right; exact hs | exact hx]|]. split; [|exact hx]. destruct hs as [e | hs]; [destruct (hn st e) | exact hs].
Qed.
Lemma listed_in files c : In c (list_commands files) <-> exists stem, In (file_of stem) files /\ Dashed stem c.
Proof.
  destruct (commands_listed files) as (_ & cs & hc & hp). rewrite <- (commands_in files cs hc c).
  split; intros h; [apply (Permutation_in _ (Permutation_sym hp)) | apply (Permutation_in _ hp)]; exact h.
Qed.

Section Run.
  Context {C : Type}.
  Variable import : list ascii -> imported C.

  (** Each command listed for a file with a plain name gives what the module of that very file defines. *)
  Theorem listed_commands_run files stem c : In (file_of stem) files -> Plain stem -> Dashed stem c ->
    In c (list_commands files) /\
    (forall k, import (module_of stem) = Module (Some k) -> get_command import c = Ok (Some k)) /\
    (forall e, import (module_of stem) = Raised e -> get_command import c = Err e).
  Proof.
    intros hf hp hd. split; [apply listed_in; exists stem; split; assumption|]. unfold get_command.
    rewrite (proj2 (listed_name_leads_back stem c hd) hp). split; intros x ->; reflexivity.
  Qed.

  (** Not what is expected: a file whose name has a dash or an upper case letter is listed, but its command gives nothing, unless another
      file has the name that is looked up. *)
  Theorem listed_but_missing_refuted files stem c : Folder files (fun m => import m <> NoModule) -> In (file_of stem) files -> ~ In "." stem -> ~ Plain stem -> Dashed stem c ->
    In c (list_commands files) /\
    ((forall other, In (file_of other) files -> other <> stem -> module_of other <> cmd_ ++ underscore c) -> get_command import c = Ok None).
  Proof.
    intros hF hf hdot hp hd. split; [apply listed_in; exists stem; split; assumption|]. intros ho. unfold get_command.
    destruct (import (cmd_ ++ underscore c)) eqn:e; [exfalso | reflexivity | exfalso].
    all: assert (hdot2 : ~ In "." (underscore c)) by
      (rewrite (dashed_fun _ _ hd); intros hi; unfold underscore in hi; apply in_map_iff in hi; destruct hi as (d & e1 & hi);
       assert (ed : d = ".") by (revert e1; clear; destruct d as [[] [] [] [] [] [] [] []]; vm_compute; congruence); subst d;
       unfold swap in hi; apply in_map_iff in hi; destruct hi as (d & e2 & hi);
       assert (ed : d = ".") by (revert e2; clear; destruct d as [[] [] [] [] [] [] [] []]; vm_compute; congruence); subst d;
       assert (hc : forall p s, In "." (split_camel p s) -> In "." s) by
         (clear; intros p s; revert p; induction s as [|a s IH]; intros p h; [exact h|]; cbn [split_camel] in h; apply in_app_iff in h; destruct h as [h | h]; [|right; exact (IH _ h)];
          left; destruct (p && upper a); cbn [In] in h; [destruct h as [h | [h | []]]; [discriminate | exact h] | destruct h as [h | []]; exact h]);
       apply hc in hi;
       assert (ha : forall s p, In "." (split_acronym p s) -> In "." s) by
         (clear; induction s as [|a s IH]; intros p h; [exact h|]; cbn [split_acronym] in h; apply in_app_iff in h; destruct h as [h | h]; [|right; exact (IH _ h)];
          left; destruct (p && upper a && _); cbn [In] in h; [destruct h as [h | [h | []]]; [discriminate | exact h] | destruct h as [h | []]; exact h]);
       apply ha in hi; unfold dasherize, swap in hi; apply in_map_iff in hi; destruct hi as (d & e3 & hi);
       assert (ed : d = ".") by (revert e3; clear; destruct d as [[] [] [] [] [] [] [] []]; vm_compute; congruence); subst d; exact (hdot hi)).
    all: assert (hin : In (file_of (underscore c)) files) by (apply (hF _ hdot2); unfold module_of; fold cmd_; rewrite e; discriminate);
         apply (ho (underscore c) hin); [intros es; apply hp; apply (listed_name_leads_back stem c hd); rewrite es; reflexivity | reflexivity].
  Qed.
End Run.

(** * Concrete commands *)
Definition txt := list_ascii_of_string.
Definition ex_files : list (list ascii) := map txt ["cmd_show_all.py"; "__init__.py"; "cmd_addUser.py"; "notes_cmd_x.py"; "cmd_del2.py"]%string.
Example ex_list : list_commands ex_files = map txt ["addUser"; "del2"; "show-all"]%string.
Proof. vm_compute. reflexivity. Qed.
Definition ex_import (m : list ascii) : imported nat :=
  if beq m (txt "cmd_show_all") then Module (Some 1) else if beq m (txt "cmd_del2") then Module (Some 2) else if beq m (txt "cmd_addUser") then Module (Some 3) else NoModule.
Example ex_get : map (fun c => get_command ex_import (txt c)) ["show-all"; "showAll"; "del2"; "addUser"]%string = [Ok (Some 1); Ok (Some 1); Ok (Some 2); Ok None].
Proof. vm_compute. reflexivity. Qed.
Example ex_underscore : map underscore (map txt ["HTMLPage"; "getHTTPResponse2X"; "a-b"]%string) = map txt ["html_page"; "get_http_response2_x"; "a_b"]%string.
Proof. vm_compute. reflexivity. Qed.
Example ex_camel : Word (txt "show") /\ Capped [txt "all2"; txt "users"] (txt "All2Users").
Proof.
  split; [cbn; unfold Small; cbn; split; [lia | repeat constructor; cbn; lia]|].
  apply (capped_cons "a" "A" (txt "ll2") _ (txt "Users")); [cbn; unfold Small; cbn; split; [lia | repeat constructor; cbn; lia] | reflexivity|].
  apply (capped_cons "u" "U" (txt "sers") _ []); [cbn; unfold Small; cbn; split; [lia | repeat constructor; cbn; lia] | reflexivity | constructor].
Qed.
Example ex_plain : Plain (txt "show_all") /\ ~ Plain (txt "addUser") /\ ~ In "."%char (txt "addUser").
Proof.
  split; [apply plain_spec; vm_compute; reflexivity|]. split; [intros h; apply plain_spec in h; vm_compute in h; discriminate|].
  cbn. intros h. repeat destruct h as [h | h]; try discriminate h. exact h.
Qed.
Example ex_folder : Folder ex_files (fun m => ex_import m <> NoModule).
Proof.
  intros stem _. unfold ex_import. assert (inj : forall s, module_of stem = txt (String.append "cmd_" s) <-> stem = txt s).
  { intros s. cbn. split; [intros h; injection h as h; exact h | intros ->; reflexivity]. }
  assert (injf : forall s, file_of stem = txt (String.append "cmd_" s) ++ [".";"p";"y"]%char <-> stem = txt s).
  { intros s. cbn. split; [intros h; injection h as h; apply app_inv_tail in h; exact h | intros ->; reflexivity]. }
  pose proof (inj "show_all"%string) as i1. pose proof (inj "del2"%string) as i2. pose proof (inj "addUser"%string) as i3.
  pose proof (injf "show_all"%string) as j1. pose proof (injf "del2"%string) as j2. pose proof (injf "addUser"%string) as j3.
  cbn [String.append] in i1, i2, i3, j1, j2, j3.
  assert (hin : In (file_of stem) ex_files <-> stem = txt "show_all" \/ stem = txt "addUser" \/ stem = txt "del2").
  { rewrite <- j1, <- j2, <- j3. unfold ex_files. cbn [map In]. split.
    - intros [h | [h | [h | [h | [h | []]]]]]; [left; symmetry; exact h | discriminate h | right; left; symmetry; exact h | discriminate h | right; right; symmetry; exact h].
    - intros [h | [h | h]]; [left; symmetry; exact h | right; right; left; symmetry; exact h | right; right; right; right; left; symmetry; exact h]. }
  rewrite hin. destruct (beq_spec _ (module_of stem) (txt "cmd_show_all")) as [e1 | n1]; [split; [intros _; left; apply i1; exact e1 | discriminate]|].
  destruct (beq_spec _ (module_of stem) (txt "cmd_del2")) as [e2 | n2]; [split; [intros _; right; right; apply i2; exact e2 | discriminate]|].
  destruct (beq_spec _ (module_of stem) (txt "cmd_addUser")) as [e3 | n3]; [split; [intros _; right; left; apply i3; exact e3 | discriminate]|].
  split; [intros h; destruct (h eq_refl)|]. intros [h | [h | h]]; exfalso; [apply n1, i1, h | apply n3, i3, h | apply n2, i2, h].
Qed.

Example ex_shouted : underscore (txt "HTTPServerLog") = txt "http_server_log" /\ underscore (txt "HTTP") = txt "http" /\ underscore (txt "ShowAll") = txt "show_all".
Proof. vm_compute. repeat split. Qed.
Example ex_acronym : cmd_ ++ underscore (txt "DBUsers") = module_of (txt "db_users").
Proof.
  apply (acronym_names (txt "db") (txt "DB") "u" "s" (txt "ers") [] (txt "Users"));
    [repeat constructor; unfold Small; cbn; lia | discriminate | unfold Small; cbn; lia|].
  apply (capped_cons "u" "U" (txt "sers") [] []); [cbn; unfold Small; cbn; split; [lia | repeat constructor; cbn; lia] | reflexivity | constructor].
Qed.
Print Assumptions capital_names.
Print Assumptions shouted_names.
Print Assumptions acronym_names.
Print Assumptions module_without_command.
Print Assumptions commands_listed.
Print Assumptions listed_name_leads_back.
Print Assumptions camel_case_names.
Print Assumptions listed_commands_run.
Print Assumptions listed_but_missing_refuted.
