(** C55: the operators of a query. *)
From Verif Require Export Op_Spec Query_Spec.
From Verif Require Import Cmp_Proofs Query_Proofs Query_Props Str_Proofs.
Local Open Scope char_scope.
Local Open Scope list_scope.

Lemma chars_inj s t : chars s = chars t -> s = t.
Proof. intros h. rewrite <- (string_of_list_ascii_of_string s), <- (string_of_list_ascii_of_string t). unfold chars in h. rewrite h. reflexivity. Qed.
Lemma hashable_spec v : hashable v = true <-> Hashable v.
Proof.
  induction v as [|b|z|s|l IH|l IH|l IH|n] using pyval_ind'; cbn; split; intros h; try constructor; try discriminate; try reflexivity; try (inversion h; fail).
  - rewrite forallb_forall in h. apply Forall_forall. intros x i. apply IH; [exact i | apply h, i].
  - inversion h as [| | | | |? h']; subst. rewrite Forall_forall in h'. apply forallb_forall. intros x i. apply IH; [exact i | apply h', i].
Qed.
Lemma plain_spec t : plain_pattern (chars t) = true <-> PlainText t.
Proof.
  unfold plain_pattern, PlainText. rewrite forallb_forall. 
  assert (hs : forall c, In c re_specials <-> In c (chars specials)) by (intros c; cbn; tauto).
  split; intros h c i; specialize (h c i).
  - apply andb_true_iff in h. destruct h as [h1 h2]. apply negb_true_iff in h1. apply mem_not_In in h1. rewrite <- hs. split; [exact h1 | apply Nat.ltb_lt, h2].
  - rewrite <- hs in h. apply andb_true_iff. split; [apply negb_true_iff, mem_not_In, h | apply Nat.ltb_lt, h].
Qed.

Lemma contains_sub_spec p s : contains_sub p s = true <-> exists a b, s = a ++ p ++ b.
Proof.
  split.
  - induction s as [|c s IH]; cbn [contains_sub]; rewrite orb_true_iff, is_prefix_spec.
    + intros [(r & e)|h]; [exists [], r; exact e|discriminate].
    + intros [(r & e)|h]; [exists [], r; exact e|]. destruct (IH h) as (a & b & ->). exists (c :: a), b. reflexivity.
  - intros (a & b & ->). induction a as [|c a IH].
    + cbn [app]. destruct (p ++ b) eqn:e; cbn [contains_sub]; rewrite orb_true_iff; left; apply is_prefix_spec; exists b; congruence.
    + cbn [app contains_sub]. rewrite IH. apply orb_true_r.
Qed.
Lemma has_suffix_spec p s : has_suffix p s = true <-> exists r, s = r ++ p.
Proof.
  split.
  - induction s as [|c s IH]; cbn [has_suffix]; rewrite orb_true_iff, beq_true.
    + intros [->|h]; [exists []; reflexivity|discriminate].
    + intros [->|h]; [exists []; reflexivity|]. destruct (IH h) as (r & ->). exists (c :: r). reflexivity.
  - intros (r & ->). induction r as [|c r IH].
    + cbn [app]. destruct p; cbn [has_suffix]; rewrite beq_refl; reflexivity.
    + cbn [app has_suffix]. rewrite IH. apply orb_true_r.
Qed.

Lemma lower_same c d : lower_ascii c = lower_ascii d <-> SameLetter c d.
Proof.
  assert (hl : forall c, nat_of_ascii (lower_ascii c) = if (Nat.leb 65 (nat_of_ascii c) && Nat.leb (nat_of_ascii c) 90)%bool then nat_of_ascii c + 32 else nat_of_ascii c).
  { intros x. unfold lower_ascii. destruct (_ && _)%bool eqn:e; [|reflexivity]. apply nat_ascii_embedding. apply andb_true_iff in e. rewrite !Nat.leb_le in e. lia. }
  assert (hi : forall x y, nat_of_ascii x = nat_of_ascii y -> x = y) by (intros x y e; rewrite <- (ascii_nat_embedding x), e; apply ascii_nat_embedding).
  unfold SameLetter. split.
  - intros e. assert (en : nat_of_ascii (lower_ascii c) = nat_of_ascii (lower_ascii d)) by congruence. rewrite !hl in en.
    destruct (Nat.leb 65 (nat_of_ascii c) && Nat.leb (nat_of_ascii c) 90)%bool eqn:ec; destruct (Nat.leb 65 (nat_of_ascii d) && Nat.leb (nat_of_ascii d) 90)%bool eqn:ed.
    + left. apply hi. lia.
    + right. exists (nat_of_ascii c). apply andb_true_iff in ec. rewrite !Nat.leb_le in ec. repeat split; try lia.
    + right. exists (nat_of_ascii d). apply andb_true_iff in ed. rewrite !Nat.leb_le in ed. repeat split; try lia.
    + left. apply hi. exact en.
  - intros [->|(n & h1 & h2 & [[hc hd]|[hd hc]])]; [reflexivity| |]; apply hi; rewrite !hl, hc, hd.
    + destruct (Nat.leb_spec 65 n); [|lia]. destruct (Nat.leb_spec n 90); [|lia]. destruct (Nat.leb_spec (n + 32) 90); [lia|]. rewrite andb_false_r. reflexivity.
    + destruct (Nat.leb_spec 65 n); [|lia]. destruct (Nat.leb_spec n 90); [|lia]. destruct (Nat.leb_spec (n + 32) 90); [lia|]. rewrite andb_false_r. reflexivity.
Qed.
Lemma lower_all_same s t : lower_all s = lower_all t <-> SameText s t.
Proof.
  unfold lower_all, SameText. split.
  - revert t. induction s as [|c s IH]; intros [|d t] h; try discriminate; constructor; injection h as h1 h2; [apply lower_same; exact h1|apply IH; exact h2].
  - induction 1 as [|c d s t h _ IH]; [reflexivity|]. cbn [map]. apply lower_same in h. congruence.
Qed.
Lemma lower_all_app s u v : lower_all s = u ++ v -> exists a b, s = a ++ b /\ lower_all a = u /\ lower_all b = v.
Proof.
  revert s. induction u as [|c u IH]; intros s h; [exists [], s; repeat split; exact h|]. destruct s as [|d s]; [discriminate|]. injection h as h1 h2.
  destruct (IH s h2) as (a & b & -> & ha & hb). exists (d :: a), b. repeat split; [|exact hb]. unfold lower_all in *. cbn [map]. rewrite ha. f_equal. exact h1.
Qed.
Lemma iprefix_spec t s : is_prefix (lower_all t) (lower_all s) = true <-> exists a b, s = a ++ b /\ SameText a t.
Proof.
  rewrite is_prefix_spec. split.
  - intros (r & e). apply lower_all_app in e. destruct e as (a & b & -> & ha & _). exists a, b. split; [reflexivity|]. apply lower_all_same. exact ha.
  - intros (a & b & -> & h). apply lower_all_same in h. exists (lower_all b). unfold lower_all in *. rewrite map_app, h. reflexivity.
Qed.
Lemma icontains_spec t s : contains_sub (lower_all t) (lower_all s) = true <-> exists a b c, s = a ++ b ++ c /\ SameText b t.
Proof.
  rewrite contains_sub_spec. split.
  - intros (u & v & e). apply lower_all_app in e. destruct e as (a & bc & -> & _ & e). apply lower_all_app in e. destruct e as (b & c & -> & hb & _).
    exists a, b, c. split; [reflexivity|]. apply lower_all_same. exact hb.
  - intros (a & b & c & -> & h). apply lower_all_same in h. exists (lower_all a), (lower_all c). unfold lower_all in *. rewrite !map_app, h. reflexivity.
Qed.
Lemma SameText_length a t : SameText a t -> length a = length t.
Proof. unfold SameText. induction 1; simpl; congruence. Qed.
Lemma match_whole_spec t s : match_whole t s = true <-> SameText s t \/ exists r, s = r ++ ["010"] /\ SameText r t.
Proof.
  unfold match_whole. rewrite andb_true_iff, iprefix_spec. split.
  - intros ((a & b & -> & h) & he). rewrite <- (SameText_length _ _ h) in he. rewrite skipn_app, skipn_all, Nat.sub_diag in he. cbn [app skipn] in he.
    destruct b as [|c [|d b]]; [left; rewrite app_nil_r; exact h| |discriminate]. cbn [at_end] in he. apply beq_true in he. subst c. right. exists a. auto.
  - intros [h|(r & -> & h)].
    + split; [exists s, []; rewrite app_nil_r; auto|]. rewrite <- (SameText_length _ _ h), skipn_all. reflexivity.
    + split; [exists r, ["010"]; auto|]. rewrite <- (SameText_length _ _ h), skipn_app, skipn_all, Nat.sub_diag. reflexivity.
Qed.

Lemma truthy_bool b : truthy (VBool b) = true <-> b = true. Proof. reflexivity. Qed.
Lemma order_op rx op a b : In op ["lt"; "le"; "ge"; "gt"]%string ->
  query_op rx op a b = match val_cmp a b with
                       | Some c => match zcmp op c with Some r => Ok (VBool r) | None => Err TypeError end
                       | None => Err TypeError end.
Proof. intros [<-|[<-|[<-|[<-|[]]]]]; reflexivity. Qed.
Lemma order_test op a b : In op ["lt"; "le"; "ge"; "gt"]%string -> (exists c, Compares a b c) -> forall rx,
  exists r, query_op rx op a b = Ok r /\ (truthy r = true <-> Means op a b).
Proof.
  intros hop (c & hc) rx. assert (hv := hc). apply val_cmp_spec in hv. rewrite (order_op rx op a b hop), hv.
  assert (u : forall c', Compares a b c' -> c' = c) by (intros c' h; apply val_cmp_spec in h; congruence).
  destruct hop as [<-|[<-|[<-|[<-|[]]]]]; destruct c; eexists; (split; [reflexivity|]); cbn [truthy]; (split; intros h'; [|]); try discriminate; try reflexivity;
    try (constructor; exact hc); try (apply (M_le _ _ _ hc); discriminate); try (apply (M_ge _ _ _ hc); discriminate);
    exfalso; inversion h' as [| | |? ? h|? ? h|? ? c' h n|? ? c' h n| | | | | | | |]; subst; apply u in h; congruence.
Qed.

Lemma Seq_elements a la : Seq a la <-> elements a = Some la.
Proof.
  split; [intros [->| ->]; reflexivity|]. destruct a; try discriminate; injection 1 as <-; [left|right]; reflexivity.
Qed.
Lemma in_test rx a b : CanHold a b -> forall op x y, (op = "in"%string /\ x = a /\ y = b) \/ (op = "contains"%string /\ x = b /\ y = a) ->
  exists r, query_op rx op x y = Ok r /\ (truthy r = true <-> IsIn a b).
Proof.
  intros hc op x y ho.
  assert (hq : query_op rx op x y = do r <- py_in a b; Ok (VBool r)) by (destruct ho as [(-> & -> & ->)|(-> & -> & ->)]; reflexivity).
  rewrite hq. clear hq ho. destruct hc as [x0 l|x0 l|x0 l h|t s].
  - eexists. split; [reflexivity|]. cbn [truthy]. rewrite vmem_spec. split; [intros (y0 & i & e); econstructor; eassumption|inversion 1; subst; eauto].
  - eexists. split; [reflexivity|]. cbn [truthy]. rewrite vmem_spec. split; [intros (y0 & i & e); econstructor; eassumption|inversion 1; subst; eauto].
  - apply hashable_spec in h. unfold py_in. rewrite h. eexists. split; [reflexivity|]. cbn [truthy].
    destruct x0; try (split; [discriminate|inversion 1]; fail).
    + rewrite dmem_In. split.
      * intros hk. unfold dkeys in hk. apply in_map_iff in hk. destruct hk as ([k v] & <- & hin). econstructor. exact hin.
      * inversion 1; subst. apply in_map_iff. eexists (_, _). split; [reflexivity|eassumption].
  - eexists. split; [reflexivity|]. cbn [truthy]. rewrite contains_sub_spec. split; [intros (u & v & e); econstructor; exact e|]. inversion 1; subst. eauto.
Qed.

(** Every test that can be asked gives a value, which is true exactly when the test holds. *)
Theorem operator_means : forall rx op a b, Defined op a b -> exists r, query_op rx op a b = Ok r /\ (truthy r = true <-> Means op a b).
Proof.
  intros rx op a b hd. destruct hd as [op a b h|op a b h ho|a b h|a b h|a b la lb ha hb hh|op s t h|op s t h hp hn].
  - destruct h as [<-|[<-|[<-|[]]]]; (eexists; split; [reflexivity|]); cbn [truthy].
    + rewrite val_eq_spec. split; [constructor; assumption|inversion 1; assumption].
    + rewrite negb_true_iff, val_eq_false. split; [constructor; assumption|inversion 1; assumption].
    + rewrite negb_true_iff, val_eq_false. split; [constructor; assumption|inversion 1; assumption].
  - apply order_test; assumption.
  - destruct (in_test rx a b h "in"%string a b) as (r & e & hr); [auto|]. exists r. split; [exact e|]. rewrite hr. split; [constructor; assumption|inversion 1; assumption].
  - destruct (in_test rx b a h "contains"%string a b) as (r & e & hr); [auto|]. exists r. split; [exact e|]. rewrite hr. split; [constructor; assumption|inversion 1; assumption].
  - assert (e : query_op rx "intersects" a b = Ok (VList (vdedup (filter (fun x => vmem x lb) la)))).
    { apply Seq_elements in ha, hb. unfold query_op, std_op. cbn -[elements forallb hashable]. rewrite ha, hb.
      assert (hf : (forallb hashable la && forallb hashable lb)%bool = true).
      { rewrite Forall_forall in hh. rewrite andb_true_iff, !forallb_forall. split; intros x hx; apply hashable_spec, hh; apply in_app_iff; auto. }
      rewrite hf. reflexivity. }
    rewrite e. eexists. split; [reflexivity|]. cbn [truthy]. split.
    + intros h. destruct (vdedup (filter (fun x => vmem x lb) la)) as [|x l] eqn:ed; [discriminate|].
      assert (hx : In x (vdedup (filter (fun x => vmem x lb) la))) by (rewrite ed; left; reflexivity).
      apply vdedup_loop_In in hx. destruct hx as [hx _]. apply filter_In in hx. destruct hx as (h1 & h2). apply vmem_spec in h2. destruct h2 as (y & hy & h2).
      econstructor; eassumption.
    + inversion 1; subst. assert (la0 = la) by (apply Seq_elements in ha; apply Seq_elements in H0; congruence). assert (lb0 = lb) by (apply Seq_elements in hb; apply Seq_elements in H1; congruence). subst.
      destruct (vdedup (filter (fun x => vmem x lb) la)) eqn:ed; [|reflexivity]. exfalso.
      assert (hx : In x (filter (fun x => vmem x lb) la)) by (apply filter_In; split; [assumption | apply vmem_spec; eauto]).
      destruct (vdedup_loop_cover [] _ x hx) as [hx' | [hx' | (z & hx' & _)]]; [|discriminate|]; change (vdedup_loop [] ?l) with (vdedup l) in hx'; rewrite ed in hx'; exact hx'.
  - destruct h as [<-|[<-|[]]]; (eexists; split; [reflexivity|]); cbn [truthy].
    + rewrite is_prefix_spec. split; [intros (r & e); econstructor; exact e|inversion 1; subst; eauto].
    + rewrite has_suffix_spec. split; [intros (r & e); econstructor; exact e|inversion 1; subst; eauto].
  - assert (e : query_op rx op (VStr s) (VStr t) = plain_rx rx op s t) by (destruct h as [<-|[<-|[<-|[]]]]; reflexivity).
    apply plain_spec in hp. rewrite e. unfold plain_rx. rewrite hp.
    assert (hr : forall b, exists r, re_result b = Ok r /\ (truthy r = true <-> b = true)) by (intros []; eexists; (split; [reflexivity|]); simpl; tauto).
    destruct h as [<-|[<-|[<-|[]]]]; cbn -[is_prefix match_whole contains_sub re_result].
    + destruct (hr (match_whole (chars t) (chars s))) as (r & er & h). exists r. split; [exact er|]. rewrite h, match_whole_spec. split.
      * intros [h'|(u & eu & _)]; [constructor; exact h'|]. exfalso. exact (hn eq_refl u eu).
      * inversion 1; subst. left. assumption.
    + destruct (hr (is_prefix (lower_all (chars t)) (lower_all (chars s)))) as (r & er & h). exists r. split; [exact er|]. rewrite h, iprefix_spec. split.
      * intros (u & v & eu & h'). econstructor; eassumption.
      * inversion 1; subst. eauto.
    + destruct (hr (contains_sub (lower_all (chars t)) (lower_all (chars s)))) as (r & er & h). exists r. split; [exact er|]. rewrite h, icontains_spec. split.
      * intros (u & v & w & eu & h'). econstructor; eassumption.
      * inversion 1; subst. eauto.
Qed.
Print Assumptions operator_means.

(** A test that cannot be asked raises TypeError. *)
Theorem operator_undefined : forall rx op a b, In op plain_tests -> ~ Defined op a b -> query_op rx op a b = Err TypeError.
Proof.
  intros rx op a b hop hd.
  destruct hop as [<-|[<-|[<-|[<-|[<-|[<-|[<-|[<-|[<-|[<-|[<-|[<-|[]]]]]]]]]]]]].
  1-3: exfalso; apply hd; apply D_eq; simpl; tauto.
  1-4: rewrite order_op by (simpl; tauto); destruct (val_cmp a b) as [c|] eqn:e; [|reflexivity]; exfalso; apply hd; apply D_order; [simpl; tauto|];
    exists c; apply val_cmp_spec, e.
  - assert (hq : query_op rx "in" a b = do r <- py_in a b; Ok (VBool r)) by reflexivity. rewrite hq.
    destruct b; try reflexivity; try (exfalso; apply hd, D_in, C_list); try (exfalso; apply hd, D_in, C_tup).
    + destruct a; try reflexivity. exfalso. apply hd, D_in, C_str.
    + unfold py_in. destruct (hashable a) eqn:eh; [|reflexivity]. exfalso. apply hd, D_in, C_dict, hashable_spec, eh.
  - assert (hq : query_op rx "contains" a b = do r <- py_in b a; Ok (VBool r)) by reflexivity. rewrite hq.
    destruct a; try reflexivity; try (exfalso; apply hd, D_contains, C_list); try (exfalso; apply hd, D_contains, C_tup).
    + destruct b; try reflexivity. exfalso. apply hd, D_contains, C_str.
    + unfold py_in. destruct (hashable b) eqn:eh; [|reflexivity]. exfalso. apply hd, D_contains, C_dict, hashable_spec, eh.
  - assert (hq : query_op rx "intersects" a b = match elements a, elements b with
      | Some la, Some lb => if (forallb hashable la && forallb hashable lb)%bool then Ok (VList (vdedup (filter (fun x => vmem x lb) la))) else Err TypeError
      | _, _ => Err TypeError end) by reflexivity.
    rewrite hq. destruct (elements a) as [la|] eqn:ea; [|reflexivity]. destruct (elements b) as [lb|] eqn:eb; [|reflexivity].
    destruct (forallb hashable la && forallb hashable lb)%bool eqn:eh; [|reflexivity]. exfalso. apply hd. apply Seq_elements in ea, eb. apply (D_intersects _ _ la lb ea eb).
    apply andb_true_iff in eh. rewrite !forallb_forall in eh. destruct eh as (eh1 & eh2). apply Forall_forall. intros x hx. apply hashable_spec.
    apply in_app_iff in hx. destruct hx; [apply eh1|apply eh2]; assumption.
  - destruct a; try reflexivity. destruct b; try reflexivity. exfalso. apply hd. apply D_text. simpl. tauto.
  - destruct a; try reflexivity. destruct b; try reflexivity. exfalso. apply hd. apply D_text. simpl. tauto.
Qed.
Print Assumptions operator_undefined.

(** * The operators that change the value tested *)
Theorem size_gives_length : forall rx a b,
  query_op rx "size" a b = match a with
                           | VList l | VTup l => Ok (VInt (Z.of_nat (length l)))
                           | VDict l => Ok (VInt (Z.of_nat (length l)))
                           | VStr s => Ok (VInt (Z.of_nat (String.length s)))
                           | _ => Err TypeError
                           end.
Proof.
  intros rx a b. destruct a; try reflexivity. unfold query_op, std_op. simpl. do 3 f_equal. unfold chars. induction s as [|c s IH]; [reflexivity|]. simpl. congruence.
Qed.
Print Assumptions size_gives_length.

(** '@n' takes the item of index n, counted from the end when negative *)
Definition digit (c : ascii) : Prop := 48 <= nat_of_ascii c /\ nat_of_ascii c <= 57.
Definition number (ds : list ascii) : Z := fold_left (fun acc c => (acc * 10 + Z.of_nat (nat_of_ascii c - 48))%Z) ds 0%Z.
Lemma digits_val_number ds : (forall c, In c ds -> digit c) -> forall acc, digits_val acc ds = Some (fold_left (fun acc c => (acc * 10 + Z.of_nat (nat_of_ascii c - 48))%Z) ds acc).
Proof.
  induction ds as [|c ds IH]; intros h acc; [reflexivity|]. cbn [digits_val fold_left]. destruct (h c (or_introl eq_refl)) as (h1 & h2).
  apply Nat.leb_le in h1, h2. rewrite h1, h2. cbn [andb]. apply IH. intros d hd. apply h. right. exact hd.
Qed.
Lemma number_nonneg ds : (0 <= number ds)%Z.
Proof.
  unfold number. assert (h : forall acc, (0 <= acc)%Z -> (0 <= fold_left (fun acc c => (acc * 10 + Z.of_nat (nat_of_ascii c - 48))%Z) ds acc)%Z); [|apply h; lia].
  induction ds as [|c ds IH]; intros acc h; [exact h|]. cbn [fold_left]. apply IH. lia.
Qed.
Lemma at_op rx c t a b : query_op rx (unchars ("@" :: c :: t)) a b = match parse_int (c :: t) with Some z => getitem a (KInt z) | None => Err ValueError end.
Proof.
  change (unchars ("@" :: c :: t)) with (String "@" (String c (string_of_list_ascii t))). unfold query_op, std_op.
  assert (h : forall op, (exists s, op = String "@" s) -> mem op ["startswith"; "endswith"; "ieq"; "istartswith"; "iendswith"; "icontains"; "regex"]%string = false /\
     beq op "eq"%string = false /\ mem op ["ne"; "neq"]%string = false /\ mem op ["lt"; "le"; "ge"; "gt"]%string = false /\ beq op "contains"%string = false /\ beq op "size"%string = false).
  { intros op (s & ->). repeat split; try reflexivity. }
  destruct (h (String "@" (String c (string_of_list_ascii t)))) as (e1 & e2 & e3 & e4 & e5 & e6); [eauto|]. rewrite e1, e2, e3, e4, e5, e6.
  change (chars (String "@" (String c (string_of_list_ascii t)))) with ("@" :: c :: list_ascii_of_string (string_of_list_ascii t)).
  rewrite list_ascii_of_string_of_list_ascii. reflexivity.
Qed.
Theorem item_from_start : forall rx c ds v l b, (forall x, In x (c :: ds) -> digit x) -> Seq v l ->
  query_op rx (unchars ("@" :: c :: ds)) v b = match nth_error l (Z.to_nat (number (c :: ds))) with Some x => Ok x | None => Err IndexError end.
Proof.
  intros rx c ds v l b hd hs. rewrite at_op.
  assert (hp : parse_int (c :: ds) = Some (number (c :: ds))).
  { assert (hc : c <> "-") by (intros ->; destruct (hd "-" (or_introl eq_refl)) as (h & _); vm_compute in h; lia).
    assert (e : parse_int (c :: ds) = digits_val 0 (c :: ds)).
    { clear - hc. destruct c as [[] [] [] [] [] [] [] []]; try reflexivity. exfalso. apply hc. reflexivity. }
    rewrite e. apply digits_val_number. exact hd. }
  rewrite hp. assert (hz := number_nonneg (c :: ds)).
  assert (hi : py_index l (number (c :: ds)) = match nth_error l (Z.to_nat (number (c :: ds))) with Some x => Ok x | None => Err IndexError end).
  { unfold py_index. destruct (Z.ltb_spec (number (c :: ds)) 0); [lia|]. destruct (Z.ltb_spec (number (c :: ds)) 0); [lia|]. reflexivity. }
  destruct hs as [->| ->]; exact hi.
Qed.
Print Assumptions item_from_start.
Theorem item_from_end : forall rx c ds v l b, (forall x, In x (c :: ds) -> digit x) -> Seq v l -> (0 < number (c :: ds) <= Z.of_nat (length l))%Z ->
  exists x, query_op rx (unchars ("@" :: "-" :: c :: ds)) v b = Ok x /\ nth_error (rev l) (Z.to_nat (number (c :: ds)) - 1) = Some x.
Proof.
  intros rx c ds v l b hd hs hn. rewrite at_op.
  assert (hp : parse_int ("-" :: c :: ds) = Some (- number (c :: ds))%Z).
  { cbn [parse_int]. rewrite digits_val_number by exact hd. reflexivity. }
  rewrite hp. set (n := number (c :: ds)) in *.
  assert (hl : exists x, nth_error l (Z.to_nat (- n + Z.of_nat (length l))) = Some x).
  { destruct (nth_error l (Z.to_nat (- n + Z.of_nat (length l)))) eqn:e; [eauto|]. apply nth_error_None in e. lia. }
  destruct hl as (x & hx). exists x. split.
  - assert (hi : py_index l (- n) = Ok x).
    { unfold py_index. destruct (Z.ltb_spec (- n) 0); [|lia]. destruct (Z.ltb_spec (- n + Z.of_nat (length l)) 0); [lia|]. rewrite hx. reflexivity. }
    destruct hs as [->| ->]; exact hi.
  - assert (hlt : Z.to_nat n - 1 < length l) by lia.
    rewrite nth_error_nth' with (d := x) by (rewrite rev_length; exact hlt). rewrite rev_nth by exact hlt.
    apply nth_error_nth with (d := x) in hx. replace (length l - S (Z.to_nat n - 1)) with (Z.to_nat (- n + Z.of_nat (length l))) by lia. rewrite hx. reflexivity.
Qed.
Print Assumptions item_from_end.

(** * Criteria in a filter *)
(** An object whose attribute is found passes 'path__op=v' exactly when the test holds, and 'path__not__op=v' exactly
    when it does not. *)
Lemma tests_are_operators op a b : Defined op a b -> is_operator op = true.
Proof.
  intros h. destruct h as [op a b h|op a b h _|a b h|a b h|a b la lb ha hb hh|op s t h|op s t h _ _]; try reflexivity; simpl in h;
    repeat (destruct h as [<-|h]; [reflexivity|]); destruct h.
Qed.
Lemma tests_not_not op a b : Defined op a b -> op <> "not"%string.
Proof.
  intros h ->. inversion h; subst; simpl in *; intuition discriminate.
Qed.
Theorem filter_by_test : forall rx path e op v obj o (neg : bool),
  (forall w, In w (path ++ [e; op]) -> ~ In "_" (chars w)) -> is_operator e = false ->
  get_descendant obj (map KStr (path ++ [e])) = Ok o -> o <> VNone -> is_mapping o = false -> Defined op o v ->
  let k := unchars (ljoin ["_"; "_"] (map chars (path ++ e :: if neg then ["not"%string; op] else [op]))) in
  exists b, filter_call (query_op rx) [] false false [mk_crit (k, v)] obj = Ok (b, [mk_crit (k, v)]) /\
            (b = true <-> if neg then ~ Means op o v else Means op o v).
Proof.
  intros rx path e op v obj o neg hw he hg hn hm hd k.
  destruct (operator_means rx op o v hd) as (r & hr & hmeans).
  assert (hc : mk_crit (k, v) = {| c_ks := path ++ [e]; c_ops := [op]; c_neg := neg; c_val := v |}).
  { assert (hu : ~ In "_" (chars "not"%string)) by (vm_compute; intuition discriminate).
    assert (hsc : sort_criteria k = (path ++ [e], if neg then ["not"%string; op] else [op])).
    { unfold k. apply criteria_round_trip.
      - intros w hin. apply in_app_iff in hin. destruct hin as [hin|[<-|hin]].
        + apply hw. apply in_app_iff. left. exact hin.
        + apply hw. apply in_app_iff. right. left. reflexivity.
        + destruct neg; [destruct hin as [<-|[<-|[]]]; [exact hu|]|destruct hin as [<-|[]]]; apply hw; apply in_app_iff; right; right; left; reflexivity.
      - exact he.
      - intros x hx. destruct neg; [destruct hx as [<-|[<-|[]]]; [reflexivity|]|destruct hx as [<-|[]]]; eapply tests_are_operators; exact hd. }
    unfold mk_crit. cbn [fst snd]. rewrite hsc. cbn [fst snd]. assert (hne := tests_not_not _ _ _ hd). destruct neg.
    - reflexivity.
    - assert (hmem : mem "not"%string [op] = false) by (apply mem_not_In; intros [h|[]]; congruence). rewrite hmem. reflexivity. }
  rewrite hc. unfold filter_call. cbn [crit_loop crit_step c_ks c_ops c_neg c_val]. unfold crit_step. cbn [c_ks c_ops c_neg c_val]. unfold path_keys. rewrite hg. cbn [rbind].
  rewrite hm. unfold apply_ops_test. cbn [apply_ops rbind]. rewrite hr. cbn [rbind].
  exists (if neg then negb (truthy r) else truthy r). split.
  - destruct o; try congruence; destruct neg; destruct (truthy r); reflexivity.
  - destruct neg; [|exact hmeans]. rewrite <- hmeans. destruct (truthy r); simpl; split; intros; congruence.
Qed.
Print Assumptions filter_by_test.

(** * Operators that do not do what their name says *)
(** FINDING: 'iendswith' anchors the given text at the start as well, so it asks for the whole text. *)
Theorem iendswith_refuted : forall rx, exists s t r, chars s = r ++ chars t /\ query_op rx "endswith" (VStr s) (VStr t) = Ok (VBool true) /\
  query_op rx "iendswith" (VStr s) (VStr t) = Ok VNone.
Proof. intros rx. exists "document.xml"%string, "xml"%string, (chars "document."). repeat split. Qed.
Print Assumptions iendswith_refuted.
Theorem iendswith_is_ieq : forall rx s t, PlainText t -> query_op rx "iendswith" (VStr s) (VStr t) = query_op rx "ieq" (VStr s) (VStr t).
Proof. intros rx s t h. apply plain_spec in h. unfold query_op, std_op. simpl. unfold plain_rx. rewrite h. reflexivity. Qed.
Print Assumptions iendswith_is_ieq.
(** FINDING: 'ieq' accepts one more newline at the end. *)
Theorem ieq_newline_refuted : forall rx, exists s t, length (chars s) <> length (chars t) /\ query_op rx "ieq" (VStr s) (VStr t) = Ok (VBool true).
Proof. intros rx. exists (unchars (chars "ab" ++ ["010"])), "AB"%string. split; [discriminate|reflexivity]. Qed.
Print Assumptions ieq_newline_refuted.
(** FINDING: 'regex' only looks at the start of the text. *)
Theorem regex_at_start : forall rx s t, PlainText t ->
  (query_op rx "regex" (VStr s) (VStr t) = Ok (VBool true) <-> exists r, chars s = chars t ++ r).
Proof.
  intros rx s t h. apply plain_spec in h. unfold query_op, std_op. simpl. unfold plain_rx. rewrite h. simpl. rewrite <- is_prefix_spec. unfold re_result.
  destruct (is_prefix (chars t) (chars s)); split; intros; congruence.
Qed.
Print Assumptions regex_at_start.

(** * Examples *)
Example filter_by_test_ex :
  let obj := VDict [("child"%string, VDict [("age"%string, VInt 7); ("tags"%string, VList [VStr "a"%string; VStr "b"%string])])] in
  Defined "ge" (VInt 7) (VInt 5) /\ Means "ge" (VInt 7) (VInt 5) /\
  Defined "contains" (VList [VStr "a"%string; VStr "b"%string]) (VStr "c"%string) /\ ~ Means "contains" (VList [VStr "a"%string; VStr "b"%string]) (VStr "c"%string) /\
  filter_call (query_op (fun _ _ _ => Err ValueError)) [] false false (map mk_crit [("child__age__ge", VInt 5); ("child__tags__not__contains", VStr "c")]%string) obj
    = Ok (true, map mk_crit [("child__age__ge", VInt 5); ("child__tags__not__contains", VStr "c")]%string) /\
  apply_ops_test (query_op (fun _ _ _ => Err ValueError)) ["@-1"; "istartswith"]%string false (VList [VStr "a"; VStr "Bcd"]%string) (VStr "bC"%string) = Ok true /\
  apply_ops_test (query_op (fun _ _ _ => Err ValueError)) ["size"; "lt"]%string false (VList [VStr "a"; VStr "Bcd"]%string) (VInt 3) = Ok true.
Proof.
  cbn zeta. repeat split.
  - apply D_order; [simpl; tauto|]. exists Gt. apply (cmp_num_gt _ _ 7 5); [constructor|constructor|lia].
  - apply (M_ge _ _ Gt); [|discriminate]. apply (cmp_num_gt _ _ 7 5); [constructor|constructor|lia].
  - apply D_contains, C_list.
  - intros h. inversion h as [| | | | | | | |a b hi| | | | | |]; subst. inversion hi as [x y l i e| | |]; subst. apply (proj2 (val_eq_spec _ _)) in e.
    destruct i as [<- | [<- | []]]; vm_compute in e; discriminate.
Qed.
(** a boolean is a number, and lists are compared item by item *)
Example python_comparisons : forall rx,
  query_op rx "eq" (VBool true) (VInt 1) = Ok (VBool true) /\
  query_op rx "in" (VInt 0) (VList [VStr "a"%string; VBool false]) = Ok (VBool true) /\
  query_op rx "lt" (VList [VInt 1; VBool true; VStr "a"%string]) (VList [VInt 1; VInt 1; VStr "b"%string; VNone]) = Ok (VBool true) /\
  query_op rx "ge" (VTup [VInt 1]) (VTup []) = Ok (VBool true) /\
  query_op rx "lt" (VList [VInt 1; VNone]) (VList [VInt 1; VInt 2]) = Err TypeError /\
  query_op rx "eq" (VDict [("a", VInt 1); ("b", VBool false)]%string) (VDict [("b", VInt 0); ("a", VBool true)]%string) = Ok (VBool true).
Proof. repeat split. Qed.
