(** C57: a checked argument reaches the function converted, or the function does not run. *)
From Verif Require Import Argc_Proofs Arr_Proofs.
From Coq Require Import Lia.

Section Props.
  Context {V : Type} (truth : V -> bool).
  Implicit Types (args : list V) (kw : dict string V).

  Lemma located sg (self : option (V * bool)) a p : Signature sg -> Selects sg self a p ->
    exists i, locate sg a = Ok (Some (Z.of_nat i), p) /\ nth_error (map fst (s_params sg)) i = Some p /\
      match self with Some (_, t) => t = true /\ 1 <= i | None => True end.
  Proof.
    intros hs [i [hn [ha hself]]]. exists i. split; [|split; assumption]. destruct ha as [-> | ->]; cbn.
    - destruct (index_of_spec p _ (nth_error_In _ _ hn)) as [j [h1 h2]]. rewrite h1. cbn.
      assert (i = j) as ->; [|reflexivity]. unfold Signature in hs. rewrite NoDup_nth_error in hs. apply hs.
      + apply nth_error_Some. rewrite hn. discriminate.
      + rewrite hn, h2. reflexivity.
    - unfold py_get. rewrite py_pos_nat; [cbn; rewrite hn; reflexivity|]. apply nth_error_Some. rewrite hn. discriminate.
  Qed.

  Lemma reported_rejected e : Rejected e (reported e).
  Proof.
    destruct (eq_dec e InvalidValue) as [-> | n1]; [constructor|].
    destruct (eq_dec e ValidationError) as [-> | n2]; [constructor|].
    destruct e; try (constructor; discriminate); contradiction.
  Qed.

  (** what one decorator does to the arguments *)
  Lemma wrapper_step sg self check i p (g : callable V) args kw :
    Signature sg -> nth_error (map fst (s_params sg)) i = Some p ->
    match self with Some (_, t) => t = true /\ 1 <= i | None => True end ->
    dget "assert_args"%string kw = None ->
    let plain := bound_call sg self in
    let f := wrapper truth check (Some (Z.of_nat i)) p (option_map snd self) g in
    (exists v e, check v = Err e /\ f args kw = Raises (reported e) /\ forall b, plain args kw = Runs b -> Binds b p v)
    \/ exists args' kw', f args kw = g args' kw' /\ dget "assert_args"%string kw' = None /\
         (plain args kw = Raises TypeError -> plain args' kw' = Raises TypeError) /\
         forall b, plain args kw = Runs b ->
           (exists v w b', Binds b p v /\ check v = Ok w /\ plain args' kw' = Runs b' /\ Changed p w b b')
           \/ (Defaults b p /\ plain args' kw' = Runs b).
  Proof.
    intros hs hi hself hk plain f. unfold f, wrapper. rewrite hk. cbn [negb].
    rewrite (ddel_notin "assert_args"%string kw) by (apply dget_None; exact hk).
    pose proof (nth_error_In _ _ hi) as hp.
    destruct (dget p kw) as [v|] eqn:hv.
    - assert (hpa : p <> "assert_args"%string) by (intros ->; rewrite hk in hv; discriminate).
      assert (hm : dmem p kw = true) by (unfold dmem; rewrite hv; reflexivity).
      destruct (check v) as [w|e] eqn:hc.
      + right. exists args, (dset p w kw). split; [reflexivity|]. split; [|split].
        * rewrite dget_dset_other by (intros <-; exact (hpa eq_refl)). exact hk.
        * unfold plain, bound_call. apply call_raises; [reflexivity | intros q; symmetry; apply dmem_dset_in; exact hm |].
          rewrite extra_dset by exact hp. reflexivity.
        * intros b hb. left. unfold plain, bound_call in *.
          destruct (call_kw _ _ _ p v w b hs hp hv hb) as [h1 [b' [h2 h3]]]. exists v, w, b'. auto.
      + left. exists v, e. split; [exact hc|]. split; [reflexivity|]. intros b hb. unfold plain, bound_call in hb.
        destruct (call_kw _ _ _ p v v b hs hp hv hb) as [h1 _]. exact h1.
    - (* by position *)
      set (i2 := match option_map snd self with Some true => (Z.of_nat i - 1)%Z | _ => Z.of_nat i end).
      set (j := match self with Some _ => i - 1 | None => i end).
      assert (hi2 : i2 = Z.of_nat j).
      { unfold i2, j. destruct self as [[o t]|]; cbn; [|reflexivity]. destruct hself as [-> h1]. lia. }
      rewrite hi2. clearbody i2. clear hi2 i2.
      set (full := fun l : list V => match self with Some (o, _) => o :: l | None => l end).
      assert (hplain : forall l k, plain l k = call sg (full l) k) by reflexivity.
      assert (hfull : forall l u, nth_error l j = Some u -> nth_error (full l) i = Some u).
      { intros l u. unfold full, j. destruct self as [[o t]|]; [|auto]. destruct hself as [_ h1].
        destruct i; [lia|]. cbn. rewrite Nat.sub_0_r. auto. }
      assert (hput : forall l w, full (firstn j l ++ w :: skipn (S j) l) = firstn i (full l) ++ w :: skipn (S i) (full l)).
      { intros l w. unfold full, j. destruct self as [[o t]|]; [|auto]. destruct hself as [_ h1].
        destruct i as [|i']; [lia|]. replace (S i' - 1) with i' by lia. reflexivity. }
      destruct (Z.ltb (Z.of_nat j) (Z.of_nat (length args))) eqn:hlt.
      + apply Z.ltb_lt in hlt. assert (hj : j < length args) by lia.
        destruct (nth_error args j) as [v|] eqn:hn; [|apply nth_error_None in hn; lia].
        rewrite (py_get_nat _ _ _ hn). destruct (check v) as [w|e] eqn:hc.
        * rewrite py_set_nat by exact hj. right. exists (firstn j args ++ w :: skipn (S j) args), kw.
          split; [reflexivity|]. split; [exact hk|]. rewrite !hplain, hput. split.
          -- apply call_raises; [|reflexivity|reflexivity]. rewrite len_put; [reflexivity|].
             apply nth_error_Some. rewrite (hfull _ _ hn). discriminate.
          -- intros b hb. left.
             destruct (call_pos _ _ _ i p v w b hs hi (hfull _ _ hn) hb) as [h1 [b' [h2 h3]]]. exists v, w, b'. auto.
        * left. exists v, e. split; [exact hc|]. split; [reflexivity|]. intros b hb. rewrite hplain in hb.
          destruct (call_pos _ _ _ i p v v b hs hi (hfull _ _ hn) hb) as [h1 _]. exact h1.
      + apply Z.ltb_ge in hlt. right. exists args, kw. split; [reflexivity|]. split; [exact hk|]. split; [auto|].
        intros b hb. right. split; [|exact hb]. rewrite hplain in hb.
        apply (call_default _ _ _ i p b hi) in hb; [exact hb | | exact hv].
        unfold full, j in *. destruct self as [[o t]|]; [|lia]. destruct hself as [_ h1]. cbn. lia.
  Qed.

  Lemma nodup_fst_unique {A B} (l : list (A * B)) a x y : NoDup (map fst l) -> In (a, x) l -> In (a, y) l -> x = y.
  Proof.
    induction l as [|[b z] l IH]; intros nd h1 h2; [destruct h1|]. cbn in nd. inversion nd as [|? ? hn nd']; subst.
    destruct h1 as [h1 | h1], h2 as [h2 | h2].
    - congruence.
    - injection h1 as -> ->. exfalso. apply hn, in_map_iff. exists (a, y). auto.
    - injection h2 as -> ->. exfalso. apply hn, in_map_iff. exists (a, x). auto.
    - exact (IH nd' h1 h2).
  Qed.
  Lemma runs_names sg self args kw b : @bound_call V sg self args kw = Runs b -> map fst (b_params b) = map fst (s_params sg).
  Proof.
    unfold bound_call, call. destruct (bind_params _ _ kw) as [[bs rest]|] eqn:hb; [|discriminate]. intros h.
    destruct (negb (s_star sg) && _); [discriminate|]. destruct (negb (s_starstar sg) && _); [discriminate|].
    injection h as <-. exact (bind_names _ _ _ _ _ hb).
  Qed.
  Lemma runs_or_type_error sg self args kw : (exists b, @bound_call V sg self args kw = Runs b) \/ @bound_call V sg self args kw = Raises TypeError.
  Proof.
    destruct (bound_call sg self args kw) as [e|b] eqn:h; [right | left; exists b; reflexivity].
    rewrite (call_type_error _ _ _ _ h). reflexivity.
  Qed.

  (** One decorator. The call is compared with the same call of the function without the decorator. *)
  Theorem checked_argument : forall sg self a p check args kw,
    Signature sg -> Selects sg self a p -> dget "assert_args"%string kw = None ->
    exists f, decorated truth sg self [(a, check)] = Ok f /\
      (forall b v, bound_call sg self args kw = Runs b -> Binds b p v ->
         (forall w, check v = Ok w -> exists b', f args kw = Runs b' /\ Changed p w b b') /\
         (forall e, check v = Err e -> exists e', f args kw = Raises e' /\ Rejected e e')) /\
      (forall b, bound_call sg self args kw = Runs b -> Defaults b p -> f args kw = Runs b) /\
      (forall e, bound_call sg self args kw = Raises e -> exists e', f args kw = Raises e').
  Proof.
    intros sg self a p check args kw hs ha hk. destruct (located _ _ _ _ hs ha) as [i [hl [hi hself]]].
    cbn. rewrite hl. cbn. eexists. split; [reflexivity|].
    pose proof (wrapper_step sg self check i p (bound_call sg self) args kw hs hi hself hk) as hw. cbn in hw.
    assert (hu : forall b x y, bound_call sg self args kw = Runs b -> In (p, x) (b_params b) -> In (p, y) (b_params b) -> x = y).
    { intros b x y hb. apply nodup_fst_unique. rewrite (runs_names _ _ _ _ _ hb). exact hs. }
    destruct hw as [[v [e [hc [hf hb]]]] | [args' [kw' [hf [hk' [hr hb]]]]]]; rewrite hf.
    - split; [|split].
      + intros b v' hrun hbind. pose proof (hu _ _ _ hrun hbind (hb _ hrun)) as hvv. injection hvv as ->. rewrite hc.
        split; [discriminate|]. intros e0 [= <-]. eexists. split; [reflexivity|]. apply reported_rejected.
      + intros b hrun hd. pose proof (hu _ _ _ hrun hd (hb _ hrun)) as hx. discriminate.
      + eexists. reflexivity.
    - split; [|split].
      + intros b v' hrun hbind. destruct (hb _ hrun) as [[v [w [b' [h1 [h2 [h3 h4]]]]]] | [h1 h2]].
        * pose proof (hu _ _ _ hrun hbind h1) as hvv. injection hvv as ->. rewrite h2. split; [|discriminate].
          intros w0 [= <-]. exists b'. auto.
        * pose proof (hu _ _ _ hrun hbind h1) as hx. discriminate.
      + intros b hrun hd. destruct (hb _ hrun) as [[v [w [b' [h1 _]]]] | [h1 h2]]; [|exact h2].
        pose proof (hu _ _ _ hrun hd h1) as hx. discriminate.
      + intros e he. rewrite (call_type_error _ _ _ _ he) in he. exists TypeError. auto.
  Qed.

  (** [assert_args=False] makes the call as if there were no decorator; the flag itself is not passed on *)
  Theorem unchecked_call : forall sg self a p check args kw v,
    Signature sg -> Selects sg self a p -> dget "assert_args"%string kw = Some v -> truth v = false ->
    exists f, decorated truth sg self [(a, check)] = Ok f /\
      f args kw = bound_call sg self args (ddel "assert_args"%string kw).
  Proof.
    intros sg self a p check args kw v hs ha hk ht. destruct (located _ _ _ _ hs ha) as [i [hl [hi hself]]].
    cbn. rewrite hl. cbn. eexists. split; [reflexivity|]. unfold wrapper. rewrite hk, ht. reflexivity.
  Qed.
  (** a true flag is ignored and not passed on *)
  Theorem flag_true_ignored : forall sg self a p check args kw v,
    Signature sg -> Selects sg self a p -> dget "assert_args"%string kw = Some v -> truth v = true ->
    exists f, decorated truth sg self [(a, check)] = Ok f /\ f args kw = f args (ddel "assert_args"%string kw).
  Proof.
    intros sg self a p check args kw v hs ha hk ht. destruct (located _ _ _ _ hs ha) as [i [hl [hi hself]]].
    cbn. rewrite hl. cbn. eexists. split; [reflexivity|]. unfold wrapper.
    assert (hn : dget "assert_args"%string (ddel "assert_args"%string kw) = None)
      by (rewrite dget_ddel; destruct (eq_dec "assert_args"%string "assert_args"%string); [reflexivity | contradiction]).
    rewrite hn, hk, ht, (ddel_notin _ (ddel _ kw)); [reflexivity|]. apply dget_None. exact hn.
  Qed.

  (** Any number of decorators, each for its own parameter: if the body runs, then every checked parameter holds the value
      its checker returned for the argument of the call, and the others are untouched; and the body does run when every
      checker accepts. *)
  Lemma changed_others p w (b b' : bound V) q x : Changed p w b b' -> q <> p -> (In (q, x) (b_params b') <-> In (q, x) (b_params b)).
  Proof.
    intros [_ [h _]] hn. rewrite h. split; [intros [[-> _] | [_ h']]; [contradiction | exact h'] | intros h'; right; auto].
  Qed.
  Theorem all_arguments_checked : forall sg self ds ps,
    Signature sg -> Forall2 (fun d p => Selects sg self (fst d) p) ds ps -> NoDup ps ->
    exists f, decorated truth sg self ds = Ok f /\
      forall args kw, dget "assert_args"%string kw = None ->
        (forall b', f args kw = Runs b' ->
           exists b, bound_call sg self args kw = Runs b /\ CheckedBy (combine ps (map snd ds)) b b') /\
        (forall b, bound_call sg self args kw = Runs b ->
           (forall p c v, In (p, c) (combine ps (map snd ds)) -> Binds b p v -> exists w, c v = Ok w) ->
           exists b', f args kw = Runs b').
  Proof.
    intros sg self ds ps hs hsel. induction hsel as [|[a check] p ds ps ha hsel IH]; intros nd.
    - cbn. eexists. split; [reflexivity|]. intros args kw hk. split.
      + intros b hb. exists b. split; [exact hb|]. unfold CheckedBy. split; [reflexivity|]. split; [reflexivity|]. split; [reflexivity|].
        intros q. split; [tauto|]. intros v hv. exists v. split; [exact hv|]. left. split; [intros []|reflexivity].
      + intros b hb _. exists b. exact hb.
    - inversion nd as [|? ? hp nd']; subst. destruct (IH nd') as [f [hf hstep]]. cbn in ha.
      destruct (located _ _ _ _ hs ha) as [i [hl [hi hself]]]. cbn [decorated]. rewrite hf. cbn. rewrite hl. cbn.
      eexists. split; [reflexivity|]. intros args kw hk.
      assert (hnp : forall c, ~ In (p, c) (combine ps (map snd ds))).
      { intros c hin. apply in_combine_l in hin. contradiction. }
      assert (hnp' : ~ In p (map fst (combine ps (map snd ds)))).
      { intros hin. apply in_map_iff in hin as [[p' c] [he hin]]. cbn in he. subst p'. exact (hnp c hin). }
      pose proof (wrapper_step sg self check i p f args kw hs hi hself hk) as hw. cbn in hw.
      destruct hw as [[v [e [hc [hff hb]]]] | [args' [kw' [hff [hk' [hr hb]]]]]]; rewrite hff.
      + split; [discriminate|]. intros b hrun hall. exfalso.
        destruct (hall p check v) as [w hw]; [left; reflexivity | exact (hb _ hrun) | congruence].
      + destruct (hstep args' kw' hk') as [hs1 hs2]. split.
        * intros b' hf'. destruct (hs1 _ hf') as [b1 [hb1 hcheck]].
          destruct (runs_or_type_error sg self args kw) as [[b hrun] | hrun]; [|rewrite (hr hrun) in hb1; discriminate].
          exists b. split; [exact hrun|]. destruct (hb _ hrun) as [[v [w [b1' [h1 [h2 [h3 h4]]]]]] | [h1 h2]].
          -- assert (b1' = b1) as -> by congruence. destruct hcheck as [e1 [e2 [e3 hq]]]. pose proof h4 as [f1 [f2 [f3 f4]]].
             split; [congruence|]. split; [congruence|]. split; [congruence|]. intros q. destruct (hq q) as [hd hbind]. split.
             ++ rewrite hd. unfold Defaults. rewrite f2. split.
                ** intros [[_ h] | [_ h]]; [discriminate | exact h].
                ** intros h. right. split; [|exact h]. intros ->.
                   pose proof (nodup_fst_unique _ _ _ _ ltac:(rewrite (runs_names _ _ _ _ _ hrun); exact hs) h h1). discriminate.
             ++ intros v' hv'. destruct (hbind _ hv') as [v1 [hv1 hcase]].
                unfold Binds in hv1. rewrite f2 in hv1. destruct hv1 as [[-> hv1] | [hne hv1]].
                ** injection hv1 as ->. exists v. split; [exact h1|]. right. exists check. split; [left; reflexivity|].
                   destruct hcase as [[_ ->] | [c [hc _]]]; [exact h2 | exfalso; exact (hnp c hc)].
                ** exists v1. split; [exact hv1|]. destruct hcase as [[hno ->] | [c [hc1 hc2]]].
                   --- left. split; [|reflexivity]. intros [h | h]; [cbn in h; congruence | exact (hno h)].
                   --- right. exists c. split; [right; exact hc1 | exact hc2].
          -- assert (b1 = b) as -> by congruence. destruct hcheck as [e1 [e2 [e3 hq]]].
             split; [congruence|]. split; [congruence|]. split; [congruence|]. intros q. destruct (hq q) as [hd hbind]. split; [exact hd|].
             intros v' hv'. destruct (hbind _ hv') as [v1 [hv1 hcase]]. exists v1. split; [exact hv1|].
             destruct hcase as [[hno ->] | [c [hc1 hc2]]]; [left | right; exists c; split; [right; exact hc1 | exact hc2]].
             split; [|reflexivity]. intros [h | h]; [|exact (hno h)]. cbn in h. subst q.
             pose proof (nodup_fst_unique _ _ _ _ ltac:(rewrite (runs_names _ _ _ _ _ hrun); exact hs) hv1 h1). discriminate.
        * intros b hrun hall. destruct (hb _ hrun) as [[v [w [b1 [h1 [h2 [h3 h4]]]]]] | [h1 h2]].
          -- apply (hs2 _ h3). intros q c u hin hu. apply (hall q c u); [right; exact hin|]. unfold Binds in *.
             rewrite (changed_others p w b b1) in hu; [exact hu | exact h4 |]. intros ->. exact (hnp c hin).
          -- apply (hs2 _ h2). intros q c u hin hu. apply (hall q c u); [right; exact hin | exact hu].
  Qed.

  (** * what goes wrong *)
  (** a method of an instance that is false, such as an empty mapping: the argument after the named one is checked instead *)
  Theorem false_instance_shifts_refuted : forall sg o a i p check args kw v,
    Signature sg -> a = ByPos (Z.of_nat i) -> 1 <= i -> nth_error (map fst (s_params sg)) i = Some p ->
    dget "assert_args"%string kw = None -> dget p kw = None -> nth_error args (i - 1) = Some v ->
    exists f, decorated truth sg (Some (o, false)) [(a, check)] = Ok f /\
      (length args = i -> f args kw = bound_call sg (Some (o, false)) args kw) /\
      (forall u w, nth_error args i = Some u -> check u = Ok w ->
         f args kw = bound_call sg (Some (o, false)) (firstn i args ++ w :: skipn (S i) args) kw /\
         nth_error (firstn i args ++ w :: skipn (S i) args) (i - 1) = Some v).
  Proof.
    intros sg o a i p check args kw v hs -> h1 hi hk hp hv. cbn. unfold py_get at 1. rewrite py_pos_nat; cbn; [rewrite hi; cbn|].
    2: { apply nth_error_Some. rewrite hi. discriminate. }
    eexists. split; [reflexivity|]. unfold wrapper. rewrite hk. cbn [negb].
    rewrite (ddel_notin "assert_args"%string kw) by (apply dget_None; exact hk). rewrite hp. split.
    - intros hl. rewrite hl, Z.ltb_irrefl. reflexivity.
    - intros u w hu hw. assert (hj : i < length args) by (apply nth_error_Some; rewrite hu; discriminate).
      replace (Z.ltb (Z.of_nat i) (Z.of_nat (length args))) with true by (symmetry; apply Z.ltb_lt; lia).
      rewrite (py_get_nat _ _ _ hu), hw, py_set_nat by exact hj. split; [reflexivity|].
      rewrite nth_error_app1; [|rewrite firstn_length; lia]. destruct i as [|i]; [lia|]. replace (S i - 1) with i in * by lia.
      rewrite <- hv. clear -hj. revert args hj. induction i as [|i IH]; intros [|x args] hj; cbn in hj; try lia; [reflexivity|].
      cbn [firstn nth_error]. apply IH. lia.
  Qed.
  (** a name that is not a parameter, such as one that goes in [**kwargs]: the decorator is accepted, and every checked call
      fails *)
  Theorem unknown_name_refuted : forall sg self s check args kw,
    ~ In s (map fst (s_params sg)) -> dget "assert_args"%string kw = None ->
    exists f, decorated truth sg self [(ByName s, check)] = Ok f /\ f args kw = Raises TypeError.
  Proof.
    intros sg self s check args kw hn hk. cbn. rewrite (index_of_none _ _ hn). cbn. eexists. split; [reflexivity|].
    unfold wrapper. rewrite hk. reflexivity.
  Qed.
  (** position 0 of a method, its instance, stands for the last positional argument *)
  Theorem position_zero_checks_last_refuted : forall sg o p d ps check args kw v w,
    s_params sg = (p, d) :: ps -> dget "assert_args"%string kw = None -> dget p kw = None -> check v = Ok w ->
    exists f, decorated truth sg (Some (o, true)) [(ByPos 0, check)] = Ok f /\
      f (args ++ [v]) kw = bound_call sg (Some (o, true)) (args ++ [w]) kw /\ f [] kw = Raises IndexError.
  Proof.
    intros sg o p d ps check args kw v w he hk hp hc. cbn. rewrite he. cbn.
    eexists. split; [reflexivity|]. unfold wrapper. rewrite hk. cbn [negb].
    rewrite (ddel_notin "assert_args"%string kw) by (apply dget_None; exact hk). rewrite hp. split; [|reflexivity].
    assert (hpos : py_pos (length (args ++ [v])) (-1) = Ok (length args)).
    { unfold py_pos. cbn [Z.ltb Z.compare]. rewrite app_length. cbn [length]. replace (-1 + Z.of_nat (length args + 1))%Z with (Z.of_nat (length args)) by lia.
      replace (Z.ltb (Z.of_nat (length args)) 0) with false by (symmetry; apply Z.ltb_ge; lia).
      replace (Z.ltb (Z.of_nat (length args)) (Z.of_nat (length args + 1))) with true by (symmetry; apply Z.ltb_lt; lia).
      rewrite Nat2Z.id. reflexivity. }
    change (0 - 1)%Z with (-1)%Z. replace (Z.ltb (-1) (Z.of_nat (length (args ++ [v])))) with true by (symmetry; apply Z.ltb_lt; lia).
    unfold py_get, py_set. rewrite hpos. cbn [rbind]. rewrite nth_mid, hc, put_app. reflexivity.
  Qed.
  (** with two decorators, [assert_args=False] only switches the outer one off *)
  Theorem flag_reaches_one_decorator_refuted : forall sg self a1 p1 c1 a2 p2 c2 args kw v,
    Signature sg -> Selects sg self a1 p1 -> Selects sg self a2 p2 ->
    dget "assert_args"%string kw = Some v -> truth v = false ->
    exists f g, decorated truth sg self [(a1, c1); (a2, c2)] = Ok f /\ decorated truth sg self [(a2, c2)] = Ok g /\
      f args kw = g args (ddel "assert_args"%string kw).
  Proof.
    intros sg self a1 p1 c1 a2 p2 c2 args kw v hs h1 h2 hk ht.
    destruct (located _ _ _ _ hs h1) as [i1 [hl1 _]]. destruct (located _ _ _ _ hs h2) as [i2 [hl2 _]].
    cbn. rewrite hl2. cbn. rewrite hl1. cbn. eexists. eexists. split; [reflexivity|]. split; [reflexivity|].
    unfold wrapper at 1. rewrite hk, ht. reflexivity.
  Qed.
End Props.

(** * examples: numbers as values; the checker accepts numbers below 10 and doubles them *)
Local Open Scope string_scope.
Local Open Scope list_scope.
Definition below10 (n : nat) : res nat := if Nat.ltb n 10 then Ok (2 * n) else Err InvalidValue.
(** [def f(self, x, y=..., **kwargs)] *)
Definition sig_f : sig := {| s_params := [("self", false); ("x", false); ("y", true)]; s_star := false; s_starstar := true |}.
Example sig_f_ok : Signature sig_f.
Proof. unfold Signature. cbn. repeat constructor; cbn; intuition discriminate. Qed.
Example sig_f_selects : Selects sig_f (Some (100, true)) (ByPos 1) "x" /\ Selects sig_f (Some (100, true)) (ByName "y") "y".
Proof. split; [exists 1 | exists 2]; cbn; auto. Qed.
Definition dec_f (t : bool) (ds : list (argspec * (nat -> res nat))) (args : list nat) (kw : dict string nat) : outcome nat :=
  match decorated (fun n => Nat.ltb 0 n) sig_f (Some (100, t)) ds with Ok f => f args kw | Err e => Raises e end.
Example dec_runs : dec_f true [(ByPos 1, below10); (ByName "y", below10)] [3] [("y", 4); ("z", 50)]
  = Runs {| b_params := [("self", Some 100); ("x", Some 6); ("y", Some 8)]; b_rest := []; b_kw := [("z", 50)] |}.
Proof. reflexivity. Qed.
Example dec_rejects : dec_f true [(ByPos 1, below10)] [30] [] = Raises ValidationError.
Proof. reflexivity. Qed.
Example dec_default : dec_f true [(ByName "y", below10)] [30] []
  = Runs {| b_params := [("self", Some 100); ("x", Some 30); ("y", None)]; b_rest := []; b_kw := [] |}.
Proof. reflexivity. Qed.
Example dec_flag : dec_f true [(ByPos 1, below10)] [30] [("assert_args", 0)]
  = Runs {| b_params := [("self", Some 100); ("x", Some 30); ("y", None)]; b_rest := []; b_kw := [] |}.
Proof. reflexivity. Qed.
Example dec_false_instance : dec_f false [(ByPos 1, below10)] [30; 4] []
  = Runs {| b_params := [("self", Some 100); ("x", Some 30); ("y", Some 8)]; b_rest := []; b_kw := [] |}.
Proof. reflexivity. Qed.
Example dec_unknown : dec_f true [(ByName "z", below10)] [3] [("z", 5)] = Raises TypeError.
Proof. reflexivity. Qed.
Example dec_zero : dec_f true [(ByPos 0, below10)] [3; 4] []
  = Runs {| b_params := [("self", Some 100); ("x", Some 3); ("y", Some 8)]; b_rest := []; b_kw := [] |}.
Proof. reflexivity. Qed.

Print Assumptions checked_argument.
Print Assumptions unchecked_call.
Print Assumptions flag_true_ignored.
Print Assumptions all_arguments_checked.
Print Assumptions false_instance_shifts_refuted.
Print Assumptions unknown_name_refuted.
Print Assumptions position_zero_checks_last_refuted.
Print Assumptions flag_reaches_one_decorator_refuted.
