From Verif Require Import Ns_Model Ns_Spec Coll_Proofs Str_Proofs.
From Coq Require DecimalString DecimalNat.
Local Open Scope char_scope. Local Open Scope list_scope.

(** * order *)
Lemma str_leb_spec s : forall t, str_leb s t = true <-> LexLe s t.
Proof.
  induction s as [|a s IH]; intros [|b t]; cbn [str_leb].
  - split; [constructor|reflexivity].
  - split; [constructor|reflexivity].
  - split; [discriminate|intros h; inversion h].
  - destruct (beq_spec EqDec_ascii a b) as [->|n].
    + rewrite IH. split; [apply lex_eq|]. intros h. inversion h; subst; [lia|assumption].
    + rewrite Nat.ltb_lt. split; [apply lex_lt|]. intros h. inversion h; subst; [assumption|congruence].
Qed.
Lemma nat_ascii_inj a b : nat_of_ascii a = nat_of_ascii b -> a = b.
Proof. intros h. rewrite <- (ascii_nat_embedding a), <- (ascii_nat_embedding b), h. reflexivity. Qed.
Lemma str_leb_total s : forall t, str_leb s t = true \/ str_leb t s = true.
Proof.
  induction s as [|a s IH]; intros [|b t]; cbn [str_leb]; auto. rewrite (beq_sym EqDec_ascii b a).
  destruct (beq_spec EqDec_ascii a b) as [->|n]; [apply IH|]. rewrite !Nat.ltb_lt.
  destruct (Nat.lt_trichotomy (nat_of_ascii a) (nat_of_ascii b)) as [h|[h|h]]; auto. apply nat_ascii_inj in h. congruence.
Qed.
Lemma LexLe_trans s t u : LexLe s t -> LexLe t u -> LexLe s u.
Proof.
  intros h. revert u. induction h as [t|a b s t l|a s t h IH]; intros u g; [constructor| |].
  - inversion g; subst; apply lex_lt; lia.
  - inversion g; subst; [apply lex_lt; assumption|]. apply lex_eq. apply IH. assumption.
Qed.
Lemma LexLe_refl s : LexLe s s.
Proof. induction s; constructor; assumption. Qed.
Lemma greatest_spec l g : greatest l = Some g -> In g l /\ forall x, In x l -> LexLe x g.
Proof.
  revert g. induction l as [|x l IH]; intros g h; [discriminate|]. cbn [greatest] in h. injection h as <-.
  destruct (greatest l) as [y|] eqn:e.
  - destruct (IH y eq_refl) as [i m]. destruct (str_leb x y) eqn:exy.
    + split; [right; exact i|]. intros z [<-|iz]; [apply str_leb_spec; exact exy|apply m; exact iz].
    + split; [left; reflexivity|]. intros z [<-|iz]; [apply LexLe_refl|]. apply (LexLe_trans z y); [apply m; exact iz|].
      destruct (str_leb_total x y) as [h|h]; [congruence|apply str_leb_spec; exact h].
  - split; [left; reflexivity|]. intros z [<-|iz]; [apply LexLe_refl|]. destruct l; [destruct iz|discriminate].
Qed.
Lemma greatest_none l : greatest l = None <-> l = [].
Proof. destruct l; [split; reflexivity|split; discriminate]. Qed.
Lemma LexLe_prefix p q s : Prefix p s -> Prefix q s -> LexLe p q -> Prefix p q.
Proof.
  intros (r & ->) (r' & e) h. revert r r' e. induction h as [t|a b p q l|a p q h IH]; intros r r' e.
  - exists t. reflexivity.
  - cbn [app] in e. injection e as -> _. lia.
  - cbn [app] in e. injection e as e. destruct (IH r r' e) as (x & ->). exists x. reflexivity.
Qed.
Lemma in_ns_spec cname c : in_ns cname c = true <-> Within c cname.
Proof.
  unfold in_ns, Within. rewrite orb_true_iff, is_prefix_spec, beq_true. split.
  - intros [(r & ->)| ->]; [right|left; reflexivity]. exists r. rewrite <- app_assoc. reflexivity.
  - intros [->|(r & ->)]; [right; reflexivity|left]. exists r. rewrite <- app_assoc. reflexivity.
Qed.
Lemma Within_prefix c cname : Within c cname -> Prefix c cname.
Proof. intros [->|(r & ->)]; [exists []; symmetry; apply app_nil_r|eexists; reflexivity]. Qed.

(** * chains *)
Lemma dget_filter_key {V} (f : str -> bool) (m : dict str V) k : dget k (filter (fun kv => f (fst kv)) m) = if f k then dget k m else None.
Proof.
  induction m as [|[k' v'] m IH]; [destruct (f k); reflexivity|]. cbn [filter fst]. destruct (eq_dec k k') as [->|n].
  - destruct (f k') eqn:e; cbn [dget]; [destruct (eq_dec k' k'); congruence|]. exact IH.
  - destruct (f k'); cbn [dget]; [destruct (eq_dec k k'); [contradiction|exact IH]|].
    rewrite IH. destruct (f k); [|reflexivity]. destruct (eq_dec k k'); [contradiction|reflexivity].
Qed.
Lemma dget_app_dict {V} (a b : dict str V) k : dget k (a ++ b) = match dget k a with Some v => Some v | None => dget k b end.
Proof. induction a as [|[k' v'] a IH]; [reflexivity|]. cbn [app dget]. destruct (eq_dec k k'); [reflexivity|exact IH]. Qed.
Lemma chain_maps_get ms k : dget k (chain_maps ms) = match find (fun m => dmem k m) ms with Some m => dget k m | None => None end.
Proof.
  induction ms as [|m ms IH]; [reflexivity|]. cbn [chain_maps find]. rewrite dget_app_dict. unfold dmem at 1.
  destruct (dget k m) as [v|] eqn:e; [rewrite e; reflexivity|].
  rewrite (dget_filter_key (fun k => negb (mem k (dkeys m)))). apply dget_None in e. rewrite (proj2 (mem_not_In _ _ _) e). exact IH.
Qed.
Lemma chain_maps_cons m ms k : dget k (chain_maps (m :: ms)) = match dget k m with Some v => Some v | None => dget k (chain_maps ms) end.
Proof. rewrite !chain_maps_get. cbn [find]. unfold dmem at 1. destruct (dget k m) eqn:e; [exact e|reflexivity]. Qed.
Lemma chain_maps_app a b k : dget k (chain_maps (a ++ b)) = match dget k (chain_maps a) with Some v => Some v | None => dget k (chain_maps b) end.
Proof. induction a as [|m a IH]; [reflexivity|]. cbn [app]. rewrite !chain_maps_cons, IH. destruct (dget k m); reflexivity. Qed.
Lemma chain_maps_one m k : dget k (chain_maps [m]) = dget k m.
Proof. rewrite chain_maps_cons. destruct (dget k m); reflexivity. Qed.
Lemma dkeys_filter_key {V} (f : str -> bool) (m : dict str V) : dkeys (filter (fun kv => f (fst kv)) m) = filter f (dkeys m).
Proof. induction m as [|[k v] m IH]; [reflexivity|]. cbn [filter fst dkeys map]. destruct (f k); cbn [map fst]; fold (dkeys m); [f_equal|]; exact IH. Qed.
Lemma chain_maps_wf ms : Forall (fun m => dwf m) ms -> dwf (chain_maps ms).
Proof.
  induction 1 as [|m ms h hs IH]; [constructor|]. unfold dwf in *. cbn [chain_maps]. unfold dkeys. rewrite map_app. fold (dkeys m).
  apply NoDup_app_intro; [exact h| |].
  - fold (dkeys (filter (fun kv : str * str => negb (mem (fst kv) (dkeys m))) (chain_maps ms))).
    rewrite (dkeys_filter_key (fun k => negb (mem k (dkeys m)))). apply NoDup_filter. exact IH.
  - intros x i j. apply in_map_iff in j. destruct j as ((k & v) & <- & j). apply filter_In in j. destruct j as [_ j]. cbn [fst] in *.
    rewrite (proj2 (mem_In _ _ _) i) in j. discriminate.
Qed.

(** * cleaning *)
Lemma last_split_free c s : ~ In c s -> last (split_char c s) [] = s.
Proof. intros n. rewrite split_char_free by exact n. reflexivity. Qed.
Lemma last_cons_ne {A} (x : A) l d : l <> [] -> last (x :: l) d = last l d.
Proof. destruct l; [congruence|reflexivity]. Qed.
Lemma last_split_app c a b : last (split_char c (a ++ c :: b)) [] = last (split_char c b) [].
Proof.
  induction a as [|x a IH]; cbn [app split_char].
  - destruct (split_char c b) eqn:e; [destruct (split_char_nonempty _ _ e)|]. rewrite beq_refl. reflexivity.
  - destruct (split_char c (a ++ c :: b)) as [|w ws] eqn:e; [destruct (split_char_nonempty _ _ e)|].
    destruct (beq x c); [rewrite last_cons_ne by discriminate; exact IH|].
    destruct ws as [|w2 ws]; [|rewrite last_cons_ne in IH |- * by discriminate; exact IH].
    (* a single word: impossible, the separator is present *)
    exfalso. clear IH. revert w e. induction a as [|y a IHa]; intros w e; cbn [app split_char] in e.
    + destruct (split_char c b) eqn:e2; [destruct (split_char_nonempty _ _ e2)|]. rewrite beq_refl in e. discriminate.
    + destruct (split_char c (a ++ c :: b)) as [|w0 ws0] eqn:e2; [destruct (split_char_nonempty _ _ e2)|].
      destruct (beq y c); [discriminate|]. injection e as _ ->. apply (IHa w0). reflexivity.
Qed.
Lemma split_words_free c s : forall w, In w (split_char c s) -> ~ In c w.
Proof.
  induction s as [|x s IH]; intros w; cbn [split_char].
  - intros [<-|[]]. intros [].
  - destruct (split_char c s) as [|w0 ws] eqn:e; [destruct (split_char_nonempty _ _ e)|].
    destruct (beq_spec EqDec_ascii x c) as [->|n].
    + intros [<-|i]; [intros []|apply IH; exact i].
    + intros [<-|i]; [intros [h|h]; [congruence|exact (IH w0 (or_introl eq_refl) h)]|apply IH; right; exact i].
Qed.
Lemma last_In {A} (l : list A) d : l <> [] -> In (last l d) l.
Proof.
  induction l as [|x l IH]; [congruence|]. intros _. destruct l as [|y l]; [left; reflexivity|]. right. apply IH. discriminate.
Qed.
Lemma last_split_no c s : ~ In c (last (split_char c s) []).
Proof. apply (split_words_free c s). apply last_In. apply split_char_nonempty. Qed.

Lemma in_range_spec lo hi c : in_range lo hi c = true <-> lo <= nat_of_ascii c <= hi.
Proof. unfold in_range. rewrite andb_true_iff, !Nat.leb_le. lia. Qed.
Lemma kept_spec c : kept_char c = true <-> 65 <= nat_of_ascii c <= 122 \/ Digit c \/ c = "." \/ c = "-".
Proof.
  unfold kept_char, is_lower, is_digit, Digit. rewrite !orb_true_iff, !in_range_spec, !beq_true. split.
  - intros [[[[[h|h]|h]|h]|h]|h]; try tauto; [left; lia|]. subst c. left. vm_compute. lia.
  - tauto.
Qed.
Lemma replace_char_In a b s c : In c (replace_char a b s) -> (c = b /\ In a s) \/ (In c s /\ c <> a).
Proof.
  unfold replace_char. intros i. apply in_map_iff in i. destruct i as (x & e & i). destruct (beq_spec EqDec_ascii x a) as [e1|n].
  - left. subst. auto.
  - right. subst. auto.
Qed.
Lemma replace_char_id a b s : ~ In a s -> replace_char a b s = s.
Proof.
  induction s as [|c s IH]; intros n; [reflexivity|]. cbn [replace_char map]. fold (replace_char a b s). rewrite IH by (simpl in n; tauto).
  destruct (beq_spec EqDec_ascii c a) as [->|]; [destruct n; left; reflexivity|reflexivity].
Qed.
Lemma clean_result_chars name c : In c (clean_js_name name) -> 65 <= nat_of_ascii c <= 122 \/ Digit c \/ c = ".".
Proof.
  unfold clean_js_name. intros i. apply replace_char_In in i. destruct i as [[-> _]|[i n]]; [left; vm_compute; lia|].
  apply filter_In in i. destruct i as [_ k]. apply kept_spec in k. tauto.
Qed.
Lemma clean_good s : (forall c, In c s -> 65 <= nat_of_ascii c <= 122 \/ Digit c \/ c = ".") -> clean_js_name s = s.
Proof.
  intros h. unfold clean_js_name. rewrite last_split_free.
  - rewrite filter_all.
    + apply replace_char_id. intros i. destruct (h _ i) as [a|[a|a]]; [vm_compute in a; lia|unfold Digit in a; vm_compute in a; lia|discriminate].
    + intros c i. apply kept_spec. destruct (h c i) as [a|[a|a]]; tauto.
  - intros i. destruct (h _ i) as [a|[a|a]]; [vm_compute in a; lia|unfold Digit in a; vm_compute in a; lia|discriminate].
Qed.
Lemma plain_char c : Letter c \/ Digit c \/ c = "_" -> 65 <= nat_of_ascii c <= 122 \/ Digit c \/ c = ".".
Proof. unfold Letter. intros [h|[h| ->]]; [left; lia|right; left; exact h|left; vm_compute; lia]. Qed.
Lemma plain_clean n : Plain n -> clean_js_name n = n.
Proof. intros [_ h]. apply clean_good. intros c i. apply plain_char, h, i. Qed.
Lemma plain_no n c : Plain n -> ~ (Letter c \/ Digit c \/ c = "_") -> ~ In c n.
Proof. intros [_ h] nc i. apply nc, h, i. Qed.
Ltac not_plain := unfold Letter, Digit; vm_compute; intros [[?|?]|[?|?]]; lia || discriminate.
Lemma plain_no_slash n : Plain n -> ~ In "/" n.
Proof. intros h. apply (plain_no n _ h). not_plain. Qed.
Lemma plain_no_hash n : Plain n -> ~ In "#" n.
Proof. intros h. apply (plain_no n _ h). not_plain. Qed.
Lemma plain_no_dot n : Plain n -> ~ In "." n.
Proof. intros h. apply (plain_no n _ h). not_plain. Qed.

(** * joining and splitting *)
Lemma ljoin_cons sep w ws : ws <> [] -> ljoin sep (w :: ws) = w ++ sep ++ ljoin sep ws.
Proof. destruct ws; [congruence|reflexivity]. Qed.
Lemma split_join c ws : ws <> [] -> (forall w, In w ws -> ~ In c w) -> split_char c (ljoin [c] ws) = ws.
Proof.
  induction ws as [|w ws IH]; intros ne h; [congruence|]. destruct ws as [|w2 ws].
  - cbn [ljoin]. apply split_char_free. apply h. left. reflexivity.
  - rewrite ljoin_cons by discriminate. cbn [app]. rewrite split_char_app by (apply h; left; reflexivity).
    rewrite IH; [reflexivity|discriminate|]. intros x i. apply h. right. exact i.
Qed.

(** * fragments: tags and names alternate *)
Fixpoint interleave (tags names : list str) : list str :=
  match tags, names with t :: ts, n :: ns => t :: n :: interleave ts ns | _, _ => [] end.
Lemma interleave_In tags names x : In x (interleave tags names) -> In x tags \/ In x names.
Proof.
  revert names. induction tags as [|t ts IH]; intros [|n ns]; cbn [interleave]; try intros [].
  - left; left; assumption.
  - destruct H as [<-|h]; [right; left; reflexivity|]. destruct (IH ns h); [left|right]; right; assumption.
Qed.
Lemma odd_interleave tags names : length tags = length names -> odd_or_last false (interleave tags names) = names.
Proof.
  revert names. induction tags as [|t ts IH]; intros [|n ns] l; try discriminate; [reflexivity|]. cbn [interleave].
  injection l as l. change (odd_or_last false (t :: n :: interleave ts ns)) with (odd_or_last true (n :: interleave ts ns)).
  destruct ts as [|t2 ts], ns as [|n2 ns]; try discriminate; [reflexivity|].
  change (odd_or_last true (n :: interleave (t2 :: ts) (n2 :: ns))) with (n :: odd_or_last false (interleave (t2 :: ts) (n2 :: ns))).
  rewrite IH by exact l. reflexivity.
Qed.
Lemma fragment_names tags names : tags <> [] -> length tags = length names -> (forall n, In n names -> Plain n) ->
  (forall t, In t tags -> ~ In "/" t) -> hd [] tags <> [] ->
  fragment_to_cname ("/" :: ljoin ["/"] (interleave tags names)) = dotted names.
Proof.
  intros ne l hn ht h1. unfold fragment_to_cname, dotted.
  destruct tags as [|t ts]; [congruence|]. destruct names as [|n ns]; [discriminate|].
  assert (ei : interleave (t :: ts) (n :: ns) <> []) by discriminate.
  assert (el : lstrip ["/"] ("/" :: ljoin ["/"] (interleave (t :: ts) (n :: ns))) = ljoin ["/"] (interleave (t :: ts) (n :: ns))).
  { cbn [lstrip]. change (mem "/" ["/"]) with true. cbn iota. cbn [interleave]. rewrite ljoin_cons by discriminate.
    destruct t as [|c t]; [destruct (h1 eq_refl)|]. cbn [app]. apply lstrip_id. intros [e|[]]. apply (ht (c :: t)); left; congruence. }
  rewrite el, split_join.
  - rewrite odd_interleave by exact l. f_equal. rewrite <- (map_id (n :: ns)) at 2. apply map_ext_in. intros x i. apply plain_clean, hn, i.
  - exact ei.
  - intros w i. apply interleave_In in i. destruct i as [i|i]; [apply ht; exact i|apply plain_no_slash, hn, i].
Qed.

(** strip of the hash in front *)
Lemma strip_tail y c : c <> "#" -> rev (lstrip ["#"] (rev (y ++ [c]))) = y ++ [c].
Proof.
  intros n. rewrite rev_app_distr. change (rev [c] ++ rev y) with (c :: rev y). rewrite lstrip_id by (intros [h|[]]; congruence).
  cbn [rev]. rewrite rev_involutive. reflexivity.
Qed.
Lemma strip_hash_front s x c : c <> "#" -> strip ["#"] ("#" :: "/" :: s ++ x ++ [c]) = "/" :: s ++ x ++ [c].
Proof.
  intros n. unfold strip. change (lstrip ["#"] ("#" :: "/" :: s ++ x ++ [c])) with (lstrip ["#"] ("/" :: s ++ x ++ [c])).
  rewrite lstrip_id by (intros [h|[]]; discriminate).
  change ("/" :: s ++ x ++ [c]) with (("/" :: s) ++ (x ++ [c])). rewrite app_assoc. apply strip_tail. exact n.
Qed.
Lemma strip_noop s c x : c <> "#" -> strip ["#"] ("/" :: s ++ x ++ [c]) = "/" :: s ++ x ++ [c].
Proof.
  intros n. unfold strip. rewrite lstrip_id by (intros [h|[]]; discriminate).
  change ("/" :: s ++ x ++ [c]) with (("/" :: s) ++ (x ++ [c])). rewrite app_assoc. apply strip_tail. exact n.
Qed.
Lemma join_ends tags names : names <> [] -> length tags = length names -> (forall n, In n names -> Plain n) ->
  exists x c, ljoin ["/"] (interleave tags names) = x ++ [c] /\ c <> "#".
Proof.
  revert tags. induction names as [|n ns IH]; intros tags ne l hn; [congruence|]. destruct tags as [|t ts]; [discriminate|].
  injection l as l. cbn [interleave]. destruct ns as [|n2 ns].
  - destruct ts; [|discriminate]. cbn [interleave ljoin]. destruct (hn n (or_introl eq_refl)) as [nn hc].
    destruct (exists_last nn) as (x & c & ->). exists (t ++ ["/"] ++ x), c. split; [rewrite <- !app_assoc; reflexivity|].
    intros ->. apply (plain_no_hash (x ++ ["#"]) (hn _ (or_introl eq_refl))). apply in_or_app. right. left. reflexivity.
  - destruct (IH ts) as (x & c & e & nc); [discriminate|exact l|intros m i; apply hn; right; exact i|].
    exists (t ++ ["/"] ++ n ++ ["/"] ++ x), c. split; [|exact nc]. rewrite ljoin_cons by discriminate.
    rewrite ljoin_cons; [rewrite e, <- !app_assoc; reflexivity|]. destruct ts; [discriminate|discriminate].
Qed.

(** * searching a document *)
Lemma first_some_Some {A B} (f : A -> option B) l y : first_some f l = Some y -> exists x, In x l /\ f x = Some y.
Proof.
  induction l as [|x l IH]; [discriminate|]. cbn [first_some]. destruct (f x) as [z|] eqn:e.
  - intros h. injection h as ->. exists x. split; [left; reflexivity|exact e].
  - intros h. destruct (IH h) as (w & i & ew). exists w. split; [right; exact i|exact ew].
Qed.
Definition GoodTag (v : pyval) (t : str) : Prop := HasKey v t \/ exists n, t = index_name n.
Lemma children_tag v k c : In (k, c) (children v) -> GoodTag v k /\ (forall t, GoodTag c t -> GoodTag v t).
Proof.
  destruct v; cbn [children]; try intros [].
  - intros i. split.
    + right. apply in_combine_l in i. apply in_map_iff in i. destruct i as (n & <- & _). eauto.
    + intros t [h|h]; [left|right; exact h]. apply in_combine_r in i. eapply hk_list; eassumption.
  - intros i. split.
    + right. apply in_combine_l in i. apply in_map_iff in i. destruct i as (n & <- & _). eauto.
    + intros t [h|h]; [left|right; exact h]. apply in_combine_r in i. eapply hk_tup; eassumption.
  - intros i. apply in_map_iff in i. destruct i as ((k0 & v0) & e & i). cbn [fst snd] in e. injection e as <- <-. split.
    + left. eapply hk_here; exact i.
    + intros t [h|h]; [left|right; exact h]. eapply hk_dict; eassumption.
Qed.
Lemma search_shape names : forall v p, search names v = Some p ->
  exists tags, p = interleave tags names /\ length tags = length names /\ forall t, In t tags -> GoodTag v t.
Proof.
  induction names as [|n ns IH]; intros v p h; cbn [search] in h.
  - injection h as <-. exists []. repeat split. intros t [].
  - apply first_some_Some in h. destruct h as ((k & c) & ic & h). apply first_some_Some in h. destruct h as ((k2 & d) & id & h).
    cbn [fst snd] in *. destruct (beq k2 n); [|discriminate]. destruct (search ns d) as [q|] eqn:e; [|discriminate]. cbn [option_map] in h. injection h as <-.
    destruct (IH d q e) as (tags & -> & l & g). exists (k :: tags). split; [reflexivity|]. split; [cbn; congruence|].
    destruct (children_tag _ _ _ ic) as [g1 g2]. destruct (children_tag _ _ _ id) as [_ g3].
    intros t [<-|i]; [exact g1|]. apply g2, g3, g, i.
Qed.
Lemma index_name_good n : index_name n <> [] /\ ~ In "/" (index_name n).
Proof.
  unfold index_name. split.
  - assert (ne : Nat.to_uint n <> Decimal.Nil).
    { intros e. assert (h0 : n = 0) by (rewrite <- (DecimalNat.Unsigned.of_to n), e; reflexivity). subst n. discriminate. }
    destruct (Nat.to_uint n); [congruence|..]; discriminate.
  - induction (Nat.to_uint n) as [|d IH|d IH|d IH|d IH|d IH|d IH|d IH|d IH|d IH|d IH]; cbn; [tauto|..]; (intros [h|h]; [discriminate|exact (IH h)]).
Qed.
