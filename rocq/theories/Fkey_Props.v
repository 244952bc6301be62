(** C48: foreign keys. *)
From Verif Require Import Base Types_Spec Types_Proofs Fkey_Model Repo_Props.
Local Open Scope list_scope.

Lemma array_class_seq l : array_deserialize array_class split_opts (VTup l) = Ok l.
Proof. unfold array_deserialize. destruct l as [|x l]; [reflexivity|]. cbn [truthy array_deserialize0 rbind]. cbn [array_class a_many a_min o_many split_opts opt_or]. rewrite Bool.andb_false_r. cbn. rewrite app_nil_r. reflexivity. Qed.
Lemma as_tuple_seq l : as_tuple (VTup l) = Ok l.
Proof. unfold as_tuple, array_deserialize. destruct l as [|x l]; [reflexivity|]. cbn [truthy array_deserialize0 rbind]. cbn [array_class a_many a_min o_many no_opts opt_or]. rewrite Bool.andb_false_r. cbn. rewrite app_nil_r. reflexivity. Qed.

Section Convert.
  Context {kt : Type} (conv : kt -> pyval -> res pyval) (inst : pyval -> option (res (list pyval))).
  (** only objects are instances of the foreign class *)
  Definition OnlyObjects : Prop := forall v r, inst v = Some r -> exists n, v = VObj n.
  (** the conversion of each key type changes nothing the second time *)
  Definition Idempotent : Prop := forall t v w, conv t v = Ok w -> conv t w = Ok w.

  Lemma conv_zip_spec : forall fkt vs ws, conv_zip conv fkt vs = Ok ws <->
    length ws = min (length fkt) (length vs) /\ forall i w, nth_error ws i = Some w -> exists t v, nth_error fkt i = Some t /\ nth_error vs i = Some v /\ conv t v = Ok w.
  Proof.
    induction fkt as [|t fkt IH]; intros vs ws.
    - cbn. split; [intros h; inversion h; split; [reflexivity|intros [|i] w; discriminate]|intros [h _]; destruct ws; [reflexivity|discriminate]].
    - destruct vs as [|v vs]; [cbn; split; [intros h; inversion h; split; [reflexivity|intros [|i] w; discriminate]|intros [h _]; destruct ws; [reflexivity|discriminate]]|].
      cbn [conv_zip]. split.
      + intros h. destruct (conv t v) as [w|] eqn:c; [|discriminate]. cbn in h. destruct (conv_zip conv fkt vs) as [ws'|] eqn:z; [|discriminate]. inversion h; subst.
        apply IH in z. destruct z as [l g]. split; [cbn; rewrite l; reflexivity|]. intros [|i] w' n; [inversion n; subst; exists t, v; auto|apply g; exact n].
      + intros [l g]. destruct ws as [|w ws]; [discriminate|]. destruct (g 0 w eq_refl) as (t' & v' & a & b & c). inversion a; inversion b; subst. rewrite c. cbn.
        assert (z : conv_zip conv fkt vs = Ok ws). { apply IH. split; [cbn in l; lia|]. intros i w' n. apply (g (S i) w' n). } rewrite z. reflexivity.
  Qed.
  Lemma conv_zip_idem : Idempotent -> forall fkt vs ws, conv_zip conv fkt vs = Ok ws -> conv_zip conv fkt ws = Ok ws.
  Proof.
    intros idem. induction fkt as [|t fkt IH]; intros vs ws h; [inversion h; reflexivity|]. destruct vs as [|v vs]; [inversion h; reflexivity|].
    cbn in h. destruct (conv t v) as [w|] eqn:c; [|discriminate]. cbn in h. destruct (conv_zip conv fkt vs) as [ws'|] eqn:z; [|discriminate]. inversion h; subst.
    cbn. rewrite (idem _ _ _ c). cbn. rewrite (IH _ _ z). reflexivity.
  Qed.

  (** Nothing and negative integers are no reference. *)
  Theorem fkey_no_reference : OnlyObjects -> forall fkt, fkey_convert conv inst fkt VNone = Ok VNone /\ forall z, (z < 0)%Z -> fkey_convert conv inst fkt (VInt z) = Ok VNone.
  Proof.
    intros oo fkt. split; [reflexivity|]. intros z h. unfold fkey_convert. destruct (inst (VInt z)) as [r|] eqn:e; [destruct (oo _ _ e); discriminate|].
    destruct (Z.ltb_spec z 0); [reflexivity|lia].
  Qed.
  (** An instance gives the conversions of its key attributes, one for each key type. *)
  Theorem fkey_instance_single : forall t v k ks, v <> VNone -> inst v = Some (Ok (k :: ks)) -> fkey_convert conv inst [t] v = conv t k.
  Proof. intros t v k ks nv h. unfold fkey_convert. rewrite h. destruct v; [congruence|reflexivity..]. Qed.
  Theorem fkey_instance_composite : forall fkt v ks ws, v <> VNone -> length fkt <> 1 -> length fkt = length ks -> inst v = Some (Ok ks) ->
    (fkey_convert conv inst fkt v = Ok (VTup ws) <->
     length ws = length ks /\ forall i t k, nth_error fkt i = Some t -> nth_error ks i = Some k -> exists w, nth_error ws i = Some w /\ conv t k = Ok w).
  Proof.
    intros fkt v ks ws nv n1 hl h.
    assert (e : fkey_convert conv inst fkt v = (do ws <- conv_zip conv fkt ks; Ok (VTup ws))).
    { unfold fkey_convert. rewrite h. cbn [rbind]. destruct v; [congruence|..]; (destruct fkt as [|t [|t' f]]; [reflexivity|cbn in n1; congruence|reflexivity]). }
    rewrite e. assert (q : (do ws <- conv_zip conv fkt ks; Ok (VTup ws)) = Ok (VTup ws) <-> conv_zip conv fkt ks = Ok ws).
    { destruct (conv_zip conv fkt ks); cbn; split; congruence. } rewrite q, conv_zip_spec, <- hl, Nat.min_id. split; intros [l g]; (split; [exact l|]).
    - intros i t k n m. destruct (nth_error ws i) as [w|] eqn:nw; [|apply nth_error_None in nw; assert (i < length fkt) by (apply nth_error_Some; congruence); lia].
      exists w. split; [reflexivity|]. destruct (g i w nw) as (t' & k' & a & b & c). congruence.
    - intros i w nw. assert (li : i < length fkt) by (rewrite <- l; apply nth_error_Some; congruence).
      destruct (nth_error fkt i) as [t|] eqn:nt; [|apply nth_error_None in nt; lia]. destruct (nth_error ks i) as [k|] eqn:nk; [|apply nth_error_None in nk; lia].
      exists t, k. destruct (g i t k nt nk) as (w' & a & b). split; [reflexivity|]. split; [reflexivity|congruence].
  Qed.

  (** Converting a converted key again gives it back: several keys ... *)
  Theorem fkey_idempotent_composite : OnlyObjects -> Idempotent -> forall fkt v w, length fkt <> 1 ->
    fkey_convert conv inst fkt v = Ok w -> fkey_convert conv inst fkt w = Ok w.
  Proof.
    intros oo idem fkt v w n1 h.
    assert (K : forall vs, conv_keys conv fkt vs = (do ws <- conv_zip conv fkt vs; Ok (VTup ws))). { intros vs. destruct fkt as [|t [|t' f]]; [reflexivity|cbn in n1; congruence|reflexivity]. }
    assert (C : w = VNone \/ exists vs ws, conv_zip conv fkt vs = Ok ws /\ w = VTup ws).
    { assert (CK : forall vs, conv_keys conv fkt vs = Ok w -> exists vs ws, conv_zip conv fkt vs = Ok ws /\ w = VTup ws).
      { intros vs q. rewrite K in q. destruct (conv_zip conv fkt vs) as [ws|] eqn:z; inversion q; subst. exists vs, ws. auto. }
      assert (DK : forall r : res (list pyval), (do vs <- r; conv_keys conv fkt vs) = Ok w -> exists vs ws, conv_zip conv fkt vs = Ok ws /\ w = VTup ws).
      { intros [vs|e] q; [apply (CK vs q)|discriminate]. }
      destruct v as [|b|z|s|l|l|l|n]; [left; inversion h; reflexivity|..]; unfold fkey_convert in h; (destruct (inst _) as [r|]; [right; apply (DK r h)|]);
        try (right; eapply DK; exact h); try (right; eapply CK; exact h).
      destruct (Z.ltb z 0); [left; inversion h; reflexivity|right; eapply CK; exact h]. }
    destruct C as [->|(vs & ws & z & ->)]; [reflexivity|]. unfold fkey_convert. destruct (inst (VTup ws)) as [r|] eqn:e; [destruct (oo _ _ e); discriminate|].
    rewrite array_class_seq. cbn [rbind]. rewrite K, (conv_zip_idem idem _ _ _ z). reflexivity.
  Qed.
  (** ... and one key, when it is a boolean, a non-negative integer, or a non-empty trimmed string without a comma *)
  Theorem fkey_idempotent_single : OnlyObjects -> Idempotent -> forall t v w, fkey_convert conv inst [t] v = Ok w ->
    match w with
    | VNone | VBool _ => True
    | VInt z => (0 <= z)%Z
    | VStr s => s <> EmptyString /\ trimmed (chars s) /\ ~ In ","%char (chars s)
    | _ => False
    end -> fkey_convert conv inst [t] w = Ok w.
  Proof.
    intros oo idem t v w h hw.
    assert (C : w = VNone \/ conv t w = Ok w).
    { assert (CK : forall vs, conv_keys conv [t] vs = Ok w -> conv t w = Ok w) by (intros [|u vs] q; [discriminate|eapply idem; exact q]).
      assert (DK : forall r : res (list pyval), (do vs <- r; conv_keys conv [t] vs) = Ok w -> conv t w = Ok w) by (intros [vs|e] q; [apply (CK vs q)|discriminate]).
      destruct v as [|b|z|s|l|l|l|n]; [left; inversion h; reflexivity|..]; unfold fkey_convert in h; (destruct (inst _) as [r|]; [right; apply (DK r h)|]);
        try (right; eapply DK; exact h); try (right; eapply CK; exact h).
      destruct (Z.ltb z 0); [left; inversion h; reflexivity|right; eapply CK; exact h]. }
    destruct C as [->|cw]; [reflexivity|].
    destruct w as [|b|z|s|l|l|l|n]; try contradiction; [reflexivity|..]; unfold fkey_convert; (destruct (inst _) as [r|] eqn:e; [destruct (oo _ _ e); discriminate|]).
    - exact cw.
    - destruct (Z.ltb_spec z 0); [lia|exact cw].
    - destruct hw as (ne & tr & nc). unfold array_deserialize. cbn [truthy]. destruct (beq_spec _ s EmptyString) as [e2|_]; [congruence|].
      cbn [negb array_deserialize0 split_opts array_class o_split opt_or o_delim a_delim py_split rbind].
      assert (sp : split_on [","%char] (chars s) = [chars s]).
      { pose proof (split_on_single ","%char [chars s]) as q. cbn [ljoin] in q. apply q; [discriminate|]. intros w [<-|[]]. exact nc. }
      rewrite sp. cbn [map]. rewrite (trimmed_strip _ tr). unfold unchars, chars. rewrite string_of_list_ascii_of_string. cbn. exact cw.
  Qed.
End Convert.
Print Assumptions fkey_no_reference.
Print Assumptions fkey_instance_single.
Print Assumptions fkey_instance_composite.
Print Assumptions fkey_idempotent_composite.
Print Assumptions fkey_idempotent_single.

Lemma integer_idem : Idempotent (fun _ : unit => integer_conv).
Proof. intros t v w h. destruct v; cbn in h; try discriminate; try (inversion h; reflexivity). destruct (parse_int (chars s)); inversion h; reflexivity. Qed.
Definition no_inst (v : pyval) : option (res (list pyval)) := None.
Example fkey_composite_case : fkey_convert (fun _ : unit => integer_conv) no_inst [tt; tt] (VStr "12, 7"%string) = Ok (VTup [VInt 12; VInt 7]).
Proof. reflexivity. Qed.
Example fkey_single_case : fkey_convert (fun _ : unit => integer_conv) no_inst [tt] (VStr " 12 "%string) = Ok (VInt 12).
Proof. reflexivity. Qed.

(** Converting twice is not always converting once: a key of one string containing a comma, and the text of a negative number *)
Theorem fkey_idempotent_refuted :
  (exists inst v w, OnlyObjects inst /\ fkey_convert (fun _ : unit => string_conv) inst [tt] v = Ok w /\ fkey_convert (fun _ : unit => string_conv) inst [tt] w <> Ok w) /\
  (exists v w, fkey_convert (fun _ : unit => integer_conv) no_inst [tt] v = Ok w /\ fkey_convert (fun _ : unit => integer_conv) no_inst [tt] w = Ok VNone /\ w <> VNone).
Proof.
  split.
  - exists (fun v => match v with VObj _ => Some (Ok [VStr "a,b"%string]) | _ => None end), (VObj 0), (VStr "a,b"%string).
    split; [intros v r h; destruct v; try discriminate; eauto|]. split; [reflexivity|]. cbn. discriminate.
  - exists (VStr "-5"%string), (VInt (-5)). split; [reflexivity|]. split; [reflexivity|discriminate].
Qed.
Print Assumptions fkey_idempotent_refuted.
(** Parts in excess are dropped and missing parts are not noticed *)
Theorem fkey_arity_refuted : forall t v v' c, c <> VNone ->
  fkey_convert (fun _ : unit => integer_conv) no_inst [t; t] (VTup [VInt v; VInt v'; c]) = Ok (VTup [VInt v; VInt v']) /\
  fkey_convert (fun _ : unit => integer_conv) no_inst [t; t] (VTup [VInt v]) = Ok (VTup [VInt v]).
Proof. intros. split; reflexivity. Qed.
Print Assumptions fkey_arity_refuted.

(** ** resolution *)
Definition pyk (k : kval) : pyval := match k with Repo_Model.KNone => VNone | Repo_Model.KInt z => VInt z | Repo_Model.KStr s => VStr s end.
Lemma kvals_pyk ks : kvals_of (map pyk ks) = Ok ks.
Proof. induction ks as [|k ks IH]; [reflexivity|]. cbn [map kvals_of]. replace (kval_of (pyk k)) with (Ok k) by (destruct k; reflexivity). cbn. rewrite IH. reflexivity. Qed.

(** The foreign key of a stored entity resolves to this entity, for every history of the repository, when the key types keep
    the stored keys, unless there is one key and it is 0, empty or missing. *)
Theorem fkey_resolves : forall xs, Tame repo0 xs ->
  let r := repo_run repo0 xs in
  forall o kt (conv : kt -> pyval -> res pyval) inst fkt,
  In o (content r) -> inst (VObj o) = Some (Ok (map pyk (keys_of (objs r) o))) ->
  length fkt = length (keys_of (objs r) o) ->
  (forall t k, In t fkt -> In k (keys_of (objs r) o) -> conv t (pyk k) = Ok (pyk k)) ->
  (forall k, keys_of (objs r) o = [k] -> truthy (pyk k) = true) ->
  exists v, fkey_convert conv inst fkt (VObj o) = Ok v /\ fkey_resolve [(true, r)] v = Ok o /\ session_resolve [(true, r)] v = Ok o.
Proof.
  intros xs t r o kt conv inst fkt io hi hl hc ht.
  destruct (repo_one_per_identity xs t) as (_ & _ & hr & hcn). fold r in hr, hcn.
  assert (res : resolve_fkey r (keys_of (objs r) o) = Ok o) by (apply hr; auto).
  assert (con : repo_contains r (keys_of (objs r) o) = true) by (apply hcn; exists o; auto).
  set (ks := keys_of (objs r) o) in *. clearbody ks.
  assert (conc : forall v, as_tuple v = Ok (map pyk ks) -> fkey_resolve [(true, r)] v = Ok o /\ session_resolve [(true, r)] v = Ok o).
  { intros v q. unfold fkey_resolve, session_resolve. rewrite q. cbn [rbind]. rewrite kvals_pyk. cbn. rewrite con. split; exact res. }
  assert (Z : forall f k, length f = length k -> (forall t x, In t f -> In x k -> conv t (pyk x) = Ok (pyk x)) -> conv_zip conv f (map pyk k) = Ok (map pyk k)).
  { induction f as [|t0 f IH]; intros [|x k] l q; try discriminate; [reflexivity|]. cbn. rewrite (q t0 x) by (left; reflexivity). cbn.
    rewrite (IH k); [reflexivity|cbn in l; lia|]. intros t1 y it iy. apply q; right; assumption. }
  assert (D : (exists t0 k, fkt = [t0] /\ ks = [k]) \/ length fkt <> 1).
  { destruct fkt as [|t0 [|t1 f]]; [right; discriminate| |right; discriminate]. destruct ks as [|k [|k' ks]]; try discriminate. left. exists t0, k. auto. }
  destruct D as [(t0 & k & -> & ->)|n1].
  - exists (pyk k). unfold fkey_convert. rewrite hi. cbn. rewrite hc by (left; reflexivity). split; [reflexivity|].
    apply conc. pose proof (ht k eq_refl) as tk. unfold as_tuple. rewrite tk. unfold array_deserialize. rewrite tk. destruct k; [discriminate|reflexivity|reflexivity].
  - exists (VTup (map pyk ks)). split; [|apply conc, as_tuple_seq].
    unfold fkey_convert. rewrite hi. cbn [rbind]. destruct fkt as [|t0 [|t1 f]]; [|cbn in n1; congruence|]; unfold conv_keys; rewrite Z by assumption; reflexivity.
Qed.
Print Assumptions fkey_resolves.
(** The first entity given a key by a repository gets 0, and the foreign key 0 resolves to nothing *)
Theorem fkey_zero_refuted : exists xs r, r = repo_run repo0 xs /\ Tame repo0 xs /\ In 0 (content r) /\ keys_of (objs r) 0 = [Repo_Model.KInt 0] /\
  fkey_convert (fun _ : unit => integer_conv) no_inst [tt] (VInt 0) = Ok (VInt 0) /\
  fkey_resolve [(true, r)] (VInt 0) = Err KeyError /\ resolve_fkey r [Repo_Model.KInt 0] = Ok 0.
Proof. exists [New [Repo_Model.KNone]; Commit 0], (repo_run repo0 [New [Repo_Model.KNone]; Commit 0]). cbn. repeat split; auto. Qed.
Print Assumptions fkey_zero_refuted.

(** A session finds the key in the first of the suitable repositories that has it. *)
Theorem session_resolve_first : forall rs ks o, session_find rs ks = Ok o <->
  exists pre r post, rs = pre ++ (true, r) :: post /\ repo_contains r ks = true /\ resolve_fkey r ks = Ok o /\
    forall b r', In (b, r') pre -> b = true -> repo_contains r' ks = false.
Proof.
  induction rs as [|[b r0] rs IH]; intros ks o; cbn [session_find].
  - split; [discriminate|]. intros (pre & r & post & e & _). destruct pre; discriminate.
  - destruct (b && repo_contains r0 ks)%bool eqn:c.
    + apply andb_prop in c. destruct c as [-> c]. split.
      * intros h. exists [], r0, rs. split; [reflexivity|]. split; [exact c|]. split; [exact h|intros b' r' []].
      * intros (pre & r & post & e & c' & h & g). destruct pre as [|p pre]; [inversion e; subst; exact h|]. inversion e; subst.
        specialize (g true r0 (or_introl eq_refl) eq_refl). congruence.
    + rewrite IH. split.
      * intros (pre & r & post & e & c' & h & g). exists ((b, r0) :: pre), r, post. subst. split; [reflexivity|]. split; [exact c'|]. split; [exact h|].
        intros b' r' [e|i] hb; [inversion e; subst; cbn in c; exact c|apply (g b' r' i hb)].
      * intros (pre & r & post & e & c' & h & g). destruct pre as [|p pre]; inversion e; subst; [rewrite c' in c; discriminate|].
        exists pre, r, post. split; [reflexivity|]. split; [exact c'|]. split; [exact h|]. intros b' r' i. apply g. right. exact i.
Qed.
Print Assumptions session_resolve_first.
(** The foreign key type only asks the first suitable repository *)
Theorem fkey_resolve_first_refuted : exists rs key o, session_resolve rs key = Ok o /\ fkey_resolve rs key = Err KeyError.
Proof.
  exists [(true, repo0); (true, repo_run repo0 [New [Repo_Model.KInt 3]; Commit 0])], (VInt 3), 0. split; reflexivity.
Qed.
Print Assumptions fkey_resolve_first_refuted.

(** A key of several parts is written part by part: a number or nothing in its place raises TypeError *)
Theorem fkey_serialize_scalar : forall kt (conv : kt -> pyval -> res pyval) fkt v, length fkt <> 1 ->
  match v with VNone | VBool _ | VInt _ | VObj _ => True | _ => False end -> fkey_serialize conv fkt v = Err TypeError.
Proof. intros kt conv fkt v n h. unfold fkey_serialize. destruct fkt as [|t [|t' f]]; [|cbn in n; congruence|]; destruct v; try destruct h; reflexivity. Qed.
Print Assumptions fkey_serialize_scalar.
(** True and 1, False and 0 are the same key; a part that is a collection raises TypeError; without repository the key is invalid *)
Theorem fkey_resolve_bool : forall rs b, fkey_resolve rs (VTup [VBool b]) = fkey_resolve rs (VTup [VInt (if b then 1 else 0)%Z]).
Proof. intros rs b. unfold fkey_resolve. destruct b; reflexivity. Qed.
Print Assumptions fkey_resolve_bool.
Theorem fkey_resolve_unhashable : forall rs v, match v with VList _ | VDict _ => True | _ => False end -> fkey_resolve rs (VTup [v]) = Err TypeError.
Proof. intros rs v h. destruct v; try destruct h; reflexivity. Qed.
Print Assumptions fkey_resolve_unhashable.
Theorem fkey_resolve_nowhere : forall rs z, (forall b r, In (b, r) rs -> b = false) -> fkey_resolve rs (VTup [VInt z]) = Err InvalidValue.
Proof.
  intros rs z h. unfold fkey_resolve. cbn [as_tuple]. assert (e : filter fst rs = []).
  { apply filter_none. intros [b r] i. exact (h b r i). }
  cbn. rewrite e. reflexivity.
Qed.
Print Assumptions fkey_resolve_nowhere.
