(** C23-C26: arrays, enumerations, booleans. *)
From Verif Require Import Types_Model Types_Spec Types_Proofs Query_Proofs Str_Proofs Coll_Proofs.

(** * C23 *)
(** the result is a list, at least [minItems] long, the input's items first and padding after them *)
Theorem array_deserialize_pads : forall c o v l, array_deserialize c o v = Ok l ->
  a_min c <= length l /\ exists items pad, l = items ++ pad /\ (forall x, In x pad -> x = VNone) /\ (length items < a_min c \/ pad = []).
Proof.
  intros c o v l h. unfold array_deserialize, array_deserialize0 in h.
  destruct (match (if truthy v then v else VList (a_default c)) with VStr s => _ | _ => _ end) as [it|e]; [|discriminate].
  cbn [rbind] in h. destruct ((1 <? length it) && negb (opt_or (o_many o) (a_many c)))%bool; [discriminate|]. injection h as <-.
  rewrite app_length, repeat_length. split; [lia|]. exists it, (repeat VNone (a_min c - length it)). split; [reflexivity|]. split.
  - intros x i. apply repeat_spec in i. exact i.
  - destruct (Nat.lt_ge_cases (length it) (a_min c)) as [lt|ge]; [left; exact lt|]. right. replace (a_min c - length it) with 0 by lia. reflexivity.
Qed.
Print Assumptions array_deserialize_pads.

(** what the items are *)
Theorem array_deserialize_items : forall c o v,
  (opt_or (o_many o) (a_many c) = true) ->
  array_deserialize c o v =
    match (if truthy v then v else VList (a_default c)) with
    | VList l | VTup l => Ok (l ++ repeat VNone (a_min c - length l))
    | VStr s => if opt_or (o_split o) (a_split c)
                then match opt_or (o_delim o) (a_delim c) with
                     | [] => Err ValueError
                     | d => let ws := map (fun w => VStr (unchars (strip whitespace w))) (split_on d (chars s)) in
                            Ok (ws ++ repeat VNone (a_min c - length ws))
                     end
                else Ok (VStr s :: repeat VNone (a_min c - 1))
    | x => Ok (x :: repeat VNone (a_min c - 1))
    end.
Proof.
  intros c o v m. unfold array_deserialize, array_deserialize0. rewrite m.
  destruct (if truthy v then v else VList (a_default c)); cbn [rbind negb]; rewrite ?andb_false_r; try reflexivity.
  destruct (opt_or (o_split o) (a_split c)); [|cbn [rbind]; rewrite andb_false_r; reflexivity].
  destruct (opt_or (o_delim o) (a_delim c)); cbn [rbind py_split]; rewrite ?andb_false_r; reflexivity.
Qed.
Print Assumptions array_deserialize_items.

(** only one value: more than one raises *)
Theorem array_deserialize_single : forall c o l, opt_or (o_many o) (a_many c) = false -> 1 < length l ->
  array_deserialize c o (VList l) = Err ConversionError.
Proof.
  intros c o l m h. unfold array_deserialize. destruct l as [|x l]; [simpl in h; lia|]. cbn [truthy]. unfold array_deserialize0. cbn [rbind].
  rewrite m. destruct (Nat.ltb_spec 1 (length (x :: l))); [reflexivity|lia].
Qed.
Print Assumptions array_deserialize_single.

(** deserialising again changes nothing, whatever the options of the second call, as long as several values are allowed *)
Theorem array_deserialize_idempotent : forall c o o' v l, opt_or (o_many o') (a_many c) = true ->
  array_deserialize c o v = Ok l -> array_deserialize c o' (VList l) = Ok l.
Proof.
  intros c o o' v l m h. destruct (array_deserialize_pads c o v l h) as [hl _].
  assert (G : l <> [] \/ l = [] /\ a_default c = []).
  { unfold array_deserialize, array_deserialize0 in h.
    destruct (truthy v) eqn:t.
    - left. intros ->. destruct v; cbn [rbind] in h;
        try (cbn [length Nat.ltb Nat.leb andb] in h; injection h as h; discriminate).
      + destruct (opt_or (o_split o) (a_split c)); [|cbn in h; discriminate].
        destruct (py_split (opt_or (o_delim o) (a_delim c)) (chars s)) as [ws|] eqn:e; [|discriminate]. cbn [rbind] in h.
        destruct ws as [|w ws].
        * unfold py_split in e. destruct (opt_or (o_delim o) (a_delim c)); [discriminate|]. injection e as e. destruct (split_on_loop_ne _ _ _ e).
        * cbn [map] in h. destruct (_ && _)%bool; [discriminate|]. injection h as h. discriminate.
      + destruct l; [discriminate t|]. destruct (_ && _)%bool; [discriminate|]. injection h as h. discriminate.
      + destruct l; [discriminate t|]. destruct (_ && _)%bool; [discriminate|]. injection h as h. discriminate.
    - cbn [rbind] in h. destruct (_ && _)%bool; [discriminate|]. injection h as <-. destruct (a_default c) as [|x dl]; [|left; discriminate].
      destruct (repeat VNone (a_min c - length (@nil pyval))) eqn:e; [right; auto|left; discriminate]. }
  rewrite array_deserialize_items by exact m.
  assert (E : (if truthy (VList l) then VList l else VList (a_default c)) = VList l).
  { destruct G as [ne|[-> ->]]; [|reflexivity]. destruct l; [contradiction|reflexivity]. }
  rewrite E. replace (a_min c - length l) with 0 by lia. simpl. rewrite app_nil_r. reflexivity.
Qed.
Print Assumptions array_deserialize_idempotent.

(** FINDING: with [many] false and padding, the deserialised value is itself refused *)
Theorem array_deserialize_idempotent_single_refuted : exists c o v l,
  array_deserialize c o v = Ok l /\ array_deserialize c o (VList l) = Err ConversionError.
Proof.
  exists {| a_min := 2; a_many := false; a_split := false; a_delim := [","%char]; a_default := [] |}, no_opts, (VInt 5), [VInt 5; VNone].
  split; reflexivity.
Qed.
Print Assumptions array_deserialize_idempotent_single_refuted.

(** FINDING: a single falsy value (0, False, the empty string) is not wrapped: it gives the default *)
Theorem array_deserialize_falsy_default : forall c o v, truthy v = false ->
  array_deserialize c o v = array_deserialize0 c o (VList (a_default c)).
Proof. intros c o v t. unfold array_deserialize. rewrite t. reflexivity. Qed.
Print Assumptions array_deserialize_falsy_default.

(** writing an array of words with a one-character delimiter and reading it back *)
Theorem array_string_round_trip : forall c o d ws, a_delim c = [d] -> o_delim o = None -> opt_or (o_split o) (a_split c) = true ->
  opt_or (o_many o) (a_many c) = true ->
  (forall w, In w ws -> ~ In d w /\ trimmed w) -> array_as_string c ws <> [] -> a_min c <= length ws ->
  array_deserialize c o (VStr (unchars (array_as_string c ws))) = Ok (map (fun w => VStr (unchars w)) ws).
Proof.
  intros c o d ws ed od sp m h ne mi. rewrite array_deserialize_items by exact m. unfold array_as_string in *. rewrite ed in *.
  assert (T : truthy (VStr (unchars (ljoin [d] ws))) = true).
  { cbn [truthy]. destruct (ljoin [d] ws); [contradiction|reflexivity]. }
  rewrite T, sp, od. cbn [opt_or]. unfold chars, unchars. rewrite list_ascii_of_string_of_list_ascii.
  rewrite split_on_single.
  - cbv zeta. rewrite map_length. replace (a_min c - length ws) with 0 by lia. simpl. rewrite app_nil_r. f_equal.
    apply map_ext_in. intros w i. rewrite trimmed_strip; [reflexivity|apply h, i].
  - intros ->. apply ne. reflexivity.
  - intros w i. apply h, i.
Qed.
Print Assumptions array_string_round_trip.

(** splitting, joining and splitting again is stable *)
Theorem array_split_join_stable : forall c o d s l, a_delim c = [d] -> o_delim o = None -> opt_or (o_split o) (a_split c) = true ->
  opt_or (o_many o) (a_many c) = true -> a_min c <= 1 ->
  let ws := map (strip whitespace) (split_on [d] s) in
  s <> [] -> array_deserialize c o (VStr (unchars s)) = Ok l ->
  l = map (fun w => VStr (unchars w)) ws /\
  (array_as_string c ws <> [] -> array_deserialize c o (VStr (unchars (array_as_string c ws))) = Ok l).
Proof.
  intros c o d s l ed od sp m mi ws ne h.
  assert (wn : 1 <= length ws).
  { subst ws. rewrite map_length. unfold split_on. destruct (split_on_loop _ _ _) eqn:e; [destruct (split_on_loop_ne _ _ _ e)|simpl; lia]. }
  assert (L : l = map (fun w => VStr (unchars w)) ws).
  { rewrite array_deserialize_items in h by exact m.
    assert (T : truthy (VStr (unchars s)) = true) by (destruct s; [contradiction|reflexivity]).
    rewrite T, sp, od, ed in h. cbn [opt_or] in h. unfold chars, unchars in h. rewrite list_ascii_of_string_of_list_ascii in h. cbv zeta in h.
    rewrite map_length in h. subst ws. rewrite map_length in wn. replace (a_min c - length (split_on [d] s)) with 0 in h by lia.
    simpl in h. rewrite app_nil_r in h. injection h as <-. rewrite map_map. reflexivity. }
  split; [exact L|]. intros na. rewrite L. apply (array_string_round_trip c o d); auto; [|lia].
  intros w i. subst ws. apply in_map_iff in i. destruct i as (u & <- & i). split; [|apply strip_trimmed].
  intros x. apply strip_incl in x. apply in_split in x. destruct x as (a & b & ->).
  exact (split_on_free [d] ltac:(discriminate) (S (length s)) s ltac:(lia) _ a b i eq_refl).
Qed.
Print Assumptions array_split_join_stable.

Example array_ex :
  let c := {| a_min := 3; a_many := true; a_split := true; a_delim := [","%char]; a_default := [] |} in
  array_deserialize c no_opts (VStr "a, b") = Ok [VStr "a"; VStr "b"; VNone] /\
  array_deserialize c no_opts VNone = Ok [VNone; VNone; VNone] /\
  array_deserialize c no_opts (VDict [("k"%string, VInt 1)]) = Ok [VDict [("k"%string, VInt 1)]; VNone; VNone] /\
  array_deserialize {| a_min := 0; a_many := true; a_split := true; a_delim := [","%char]; a_default := [VInt 1] |} no_opts
     (VStr (unchars (array_as_string c [chars "x y"; chars "z"]))) = Ok [VStr "x y"; VStr "z"].
Proof. repeat split. Qed.

(** * C24 *)
(** FINDING: array validation does not depend on minItems, maxItems or uniqueItems: it accepts a list iff the other
    schema keywords do and each item that is not None validates (repeated items are accepted; with uniqueItems, items
    that cannot be hashed raise) *)
Theorem array_validate_ignores_sizes : forall js iv schema unique items l r,
  array_validate js iv schema unique items l = Ok r <->
  js (filter (fun kv => negb (mem (fst kv) ["minItems"; "maxItems"; "uniqueItems"; "items"]%string)) schema) (VList l) = false /\
  (unique = true -> forall x, In x l -> hashable x = true) /\
  length r = length l /\
  forall i x, nth_error l i = Some x -> exists y, nth_error r i = Some y /\
    match (match items with OneType t => Some t | TypeList ts => nth_error ts i end) with
    | None => y = x
    | Some t => x = VNone /\ y = VNone \/ x <> VNone /\ iv t x = Ok y
    end.
Proof.
  intros js iv schema unique items l r. unfold array_validate. fold array_excludes.
  assert (T : forall i x, nth_error l i = Some x -> nth_error (items_types items (length l)) i = match items with OneType t => Some t | TypeList ts => nth_error ts i end).
  { intros i x e. assert (hi : i < length l) by (apply nth_error_Some; congruence). destruct items as [t|ts]; cbn [items_types].
    - apply nth_error_repeat. exact hi.
    - revert ts i hi e. clear. induction (length l) as [|n IH]; intros ts i hi e; [lia|]. destruct ts as [|t ts], i as [|i]; try reflexivity. cbn. 
      clear e. revert ts i hi. clear IH. induction n as [|n IH]; intros ts i hi; [lia|]. destruct ts as [|t' ts], i as [|i]; try reflexivity. cbn. apply IH. lia. }
  assert (V : forall l ts r, validate_items iv ts l = Ok r <-> length r = length l /\
    forall i x, nth_error l i = Some x -> exists y, nth_error r i = Some y /\
    match nth_error ts i with None => y = x | Some t => x = VNone /\ y = VNone \/ x <> VNone /\ iv t x = Ok y end).
  { clear. induction l as [|v l IH]; intros ts r.
    - replace (validate_items iv ts []) with (Ok (@nil pyval)) by (destruct ts; reflexivity). split.
      + injection 1 as <-. split; [reflexivity|]. intros [|i] x; discriminate.
      + intros [h _]. destruct r; [reflexivity|discriminate].
    - destruct ts as [|t ts].
      + cbn [validate_items]. split.
        * injection 1 as <-. split; [reflexivity|]. intros i x e. exists x. split; [exact e|]. destruct i; reflexivity.
        * intros [h1 h2]. f_equal. apply nth_error_ext. intros i. destruct (nth_error (v :: l) i) as [x|] eqn:e.
          -- destruct (h2 i x e) as (y & e' & hy). rewrite e'. destruct i; simpl in hy; congruence.
          -- symmetry. apply nth_error_None. rewrite h1. apply nth_error_None. exact e.
      + cbn [validate_items]. split.
        * intros h. destruct (match v with VNone => Ok VNone | _ => iv t v end) as [v'|] eqn:ev; [|discriminate]. cbn [rbind] in h.
          destruct (validate_items iv ts l) as [r'|] eqn:er; [|discriminate]. cbn [rbind] in h. injection h as <-.
          apply IH in er. destruct er as [h1 h2]. split; [simpl; lia|]. intros [|i] x e; simpl in e |- *.
          -- injection e as <-. exists v'. split; [reflexivity|]. destruct v; try (right; split; [discriminate|exact ev]).
             left. injection ev as <-. auto.
          -- apply h2, e.
        * intros [h1 h2]. destruct r as [|y r]; [discriminate|]. destruct (h2 0 v eq_refl) as (y' & e & hy). simpl in e, hy. injection e as <-.
          assert (ev : (match v with VNone => Ok VNone | _ => iv t v end) = Ok y).
          { destruct hy as [[-> ->]|[n hy]]; [reflexivity|]. destruct v; try exact hy; contradiction. }
          rewrite ev. cbn [rbind]. rewrite (proj2 (IH ts r)); [reflexivity|]. split; [simpl in h1; lia|]. intros i x e. exact (h2 (S i) x e). }
  assert (V' : validate_items iv (items_types items (length l)) l = Ok r <-> length r = length l /\ forall i x, nth_error l i = Some x -> exists y, nth_error r i = Some y /\
    match (match items with OneType t => Some t | TypeList ts => nth_error ts i end) with None => y = x | Some t => x = VNone /\ y = VNone \/ x <> VNone /\ iv t x = Ok y end).
  { rewrite V. split; intros [h1 h2]; (split; [exact h1|]); intros i x e; destruct (h2 i x e) as (y & ey & hy); exists y; (split; [exact ey|]); [rewrite <- (T i x e)|rewrite (T i x e)]; exact hy. }
  destruct (js _ (VList l)); [split; [discriminate|intros [h _]; discriminate]|].
  destruct unique; cbn [andb].
  - destruct (forallb hashable l) eqn:hh; cbn [negb].
    + rewrite V'. rewrite forallb_forall in hh. tauto.
    + split; [discriminate|]. intros (_ & h & _). assert (forallb hashable l = true) by (apply forallb_forall; auto). congruence.
  - rewrite V'. split; [intros h; repeat split; try tauto; discriminate|tauto].
Qed.
Print Assumptions array_validate_ignores_sizes.

Theorem array_size_unchecked_refuted : exists schema l, 
  In ("maxItems"%string, VInt 2) schema /\ In ("uniqueItems"%string, VBool true) schema /\ length l > 2 /\ ~ NoDup l /\
  forall js iv, js [] (VList l) = false -> (forall t v, iv t v = Ok v) -> array_validate js iv schema true (OneType 0) l = Ok l.
Proof.
  exists [("maxItems"%string, VInt 2); ("uniqueItems"%string, VBool true)], [VInt 1; VInt 1; VInt 1].
  repeat split; [left; reflexivity|right; left; reflexivity|simpl; lia| |].
  - intros h. inversion h as [|? ? n _]. apply n. left; reflexivity.
  - intros js iv hj hi. unfold array_validate. simpl. rewrite hj. simpl. rewrite !hi. reflexivity.
Qed.
Print Assumptions array_size_unchecked_refuted.

(** * C25 *)
Theorem enum_member_unchanged : forall enum v, In v enum -> (is_str v = true \/ exists z, v = VInt z) -> enum_convert enum v = Ok v.
Proof.
  intros enum v i [s|[z ->]].
  - destruct v; try discriminate. unfold enum_convert. rewrite (proj2 (mem_In EqDec_pyval (VStr s0) enum) i). reflexivity.
  - unfold enum_convert. cbn [to_integer]. rewrite (proj2 (enum_has_int_spec z enum)); [reflexivity|]. exists (VInt z). auto.
Qed.
Print Assumptions enum_member_unchanged.

Theorem enum_index : forall enum i x, nth_error enum i = Some x -> (forall y, In y enum -> num_of y <> Some (Z.of_nat i)) ->
  enum_convert enum (VInt (Z.of_nat i)) = Ok x.
Proof.
  intros enum i x e n. unfold enum_convert. cbn [to_integer].
  destruct (enum_has_int (Z.of_nat i) enum) eqn:h; [apply enum_has_int_spec in h; destruct h as (y & iy & ey); destruct (n y iy ey)|].
  assert (L : i < length enum) by (apply nth_error_Some; congruence).
  destruct (Z.ltb_spec (Z.of_nat (length enum)) (Z.of_nat i)); [lia|]. rewrite py_index_nth by lia. rewrite Nat2Z.id, e. reflexivity.
Qed.
Print Assumptions enum_index.

Theorem enum_result_member : forall enum v r, enum_convert enum v = Ok r -> Member r enum.
Proof.
  intros enum v r h.
  assert (B : forall z r', (match v with VBool b => VBool b | _ => VInt z end) = r' -> to_integer v = Some z -> enum_has_int z enum = true -> Member r' enum).
  { intros z r' <- t e. apply enum_has_int_spec in e. destruct e as (x & i & ex). exists x. split; [exact i|]. right. exists z. split; [|exact ex].
    destruct v; try discriminate; try (injection t as <-); reflexivity. }
  assert (I : forall z, py_index enum z = Ok r -> Member r enum) by (intros z e; exists r; split; [eapply py_index_In, e|left; reflexivity]).
  unfold enum_convert in h. destruct v; cbn [to_integer] in *; try discriminate.
  - destruct (enum_has_int _ enum) eqn:e; [injection h as h; eapply B; eauto|]. destruct (Z.ltb _ _); [discriminate|eauto].
  - destruct (enum_has_int _ enum) eqn:e; [injection h as h; eapply B; eauto|]. destruct (Z.ltb _ _); [discriminate|eauto].
  - destruct (mem_spec EqDec_pyval (VStr s) enum) as [i|n]; [injection h as <-; exists (VStr s); split; [exact i|left; reflexivity]|].
    destruct (parse_int (chars s)) as [z|] eqn:p.
    + destruct (enum_has_int z enum) eqn:e; [injection h as h; eapply B; eauto|]. destruct (Z.ltb _ _); [discriminate|eauto].
    + destruct (beq s EmptyString); [eauto|discriminate].
Qed.
Print Assumptions enum_result_member.

Theorem enum_index_too_large : forall enum z, (Z.of_nat (length enum) < z)%Z -> (forall y, In y enum -> num_of y <> Some z) ->
  enum_convert enum (VInt z) = Err ConversionError.
Proof.
  intros enum z l n. unfold enum_convert. cbn [to_integer].
  destruct (enum_has_int z enum) eqn:h; [apply enum_has_int_spec in h; destruct h as (y & iy & ey); destruct (n y iy ey)|].
  destruct (Z.ltb_spec (Z.of_nat (length enum)) z); [reflexivity|lia].
Qed.
Print Assumptions enum_index_too_large.

(** FINDING: off by one: the index equal to the size escapes as IndexError *)
Theorem enum_index_size_refuted : forall enum, (forall y, In y enum -> num_of y <> Some (Z.of_nat (length enum))) ->
  enum_convert enum (VInt (Z.of_nat (length enum))) = Err IndexError.
Proof.
  intros enum n. unfold enum_convert. cbn [to_integer].
  destruct (enum_has_int _ enum) eqn:h; [apply enum_has_int_spec in h; destruct h as (y & iy & ey); destruct (n y iy ey)|].
  rewrite Z.ltb_irrefl, py_index_nth by lia. rewrite Nat2Z.id, (proj2 (nth_error_None enum (length enum))) by lia. reflexivity.
Qed.
Print Assumptions enum_index_size_refuted.

(** a word that is neither a member nor a number raises ConversionError *)
Theorem enum_unknown_word : forall enum s, ~ In (VStr s) enum -> parse_int (chars s) = None -> s <> EmptyString ->
  enum_convert enum (VStr s) = Err ConversionError.
Proof.
  intros enum s n p e. unfold enum_convert. cbn [to_integer]. rewrite p. destruct (mem_spec EqDec_pyval (VStr s) enum); [contradiction|].
  destruct (beq_spec EqDec_string s EmptyString); [contradiction|reflexivity].
Qed.
Print Assumptions enum_unknown_word.

Example enum_ex : let e := [VStr "red"; VStr "green"; VInt 7]%string in
  enum_convert e (VStr "green") = Ok (VStr "green") /\ enum_convert e (VInt 1) = Ok (VStr "green") /\ enum_convert e (VStr "0") = Ok (VStr "red")
  /\ enum_convert e (VInt 7) = Ok (VInt 7) /\ enum_convert e (VInt 4) = Err ConversionError /\ enum_convert e (VInt 3) = Err IndexError
  /\ enum_convert e (VList []) = Err UnboundLocalError /\ enum_convert e (VInt (-1)) = Ok (VInt 7).
Proof. repeat split. Qed.

(** * C26 *)
Theorem boolean_convert_iff : forall v b, boolean_convert v = Ok b <->
  v = VBool b \/ v = VInt (if b then 1 else 0)%Z \/ exists s, v = VStr s /\ Spells s (if b then "true" else "false").
Proof.
  intros v b. split.
  - destruct v; cbn [boolean_convert]; try discriminate.
    + injection 1 as <-. auto.
    + destruct (Z.eqb_spec z 0) as [->|n0]; [injection 1 as <-; auto|]. destruct (Z.eqb_spec z 1) as [->|n1]; [injection 1 as <-; auto|discriminate].
    + unfold bool_trues, bool_falses. destruct (mem_spec EqDec_string (str_lower s) ["true"%string]) as [i|n].
      * injection 1 as <-. right; right. exists s. split; [reflexivity|]. apply lower_spells. destruct i as [<-|[]]. reflexivity.
      * destruct (mem_spec EqDec_string (str_lower s) ["false"%string]) as [i|n']; [|discriminate]. injection 1 as <-.
        right; right. exists s. split; [reflexivity|]. apply lower_spells. destruct i as [<-|[]]. reflexivity.
  - intros [->|[->|(s & -> & h)]]; [reflexivity|destruct b; reflexivity|]. apply lower_spells in h. cbn [boolean_convert]. rewrite h. destruct b; reflexivity.
Qed.
Print Assumptions boolean_convert_iff.

Theorem boolean_convert_fails : forall v e, boolean_convert v = Err e -> e = ConversionError.
Proof.
  intros v e. destruct v; cbn [boolean_convert]; try congruence.
  - destruct (_ || _)%bool; congruence.
  - destruct (mem _ _); [congruence|]. destruct (mem _ _); congruence.
Qed.
Print Assumptions boolean_convert_fails.

Theorem boolean_convert_idempotent : forall v b, boolean_convert v = Ok b -> boolean_convert (VBool b) = Ok b.
Proof. reflexivity. Qed.
Print Assumptions boolean_convert_idempotent.

Example boolean_ex : boolean_convert (VStr "TrUe") = Ok true /\ boolean_convert (VInt 0) = Ok false /\ boolean_convert (VInt 2) = Err ConversionError
  /\ boolean_convert VNone = Err ConversionError /\ boolean_convert (VStr "yes") = Err ConversionError.
Proof. repeat split. Qed.
