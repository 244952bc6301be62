From Verif Require Export Argc_Spec.
From Verif Require Import Arr_Proofs.
From Coq Require Import Lia.

Section Proofs.
  Context {V : Type}.
  Implicit Types (args : list V) (kw : dict string V) (bs : list (string * option V)).

  Definition subst (p : string) (w : V) bs := map (fun x => if eq_dec (fst x) p then (p, Some w) else x) bs.

  Arguments subst : simpl never.
  Lemma subst_cons p w q x bs : subst p w ((q, x) :: bs) = (if eq_dec q p then (p, Some w) else (q, x)) :: subst p w bs.
  Proof. reflexivity. Qed.
  Lemma subst_fst p w bs : map fst (subst p w bs) = map fst bs.
  Proof.
    unfold subst. rewrite map_map. apply map_ext_in. intros [q x] _. cbn [fst].
    destruct (eq_dec q p) as [-> |]; reflexivity.
  Qed.
  Lemma subst_none p w bs : ~ In p (map fst bs) -> subst p w bs = bs.
  Proof.
    intros h. unfold subst. rewrite <- map_id. apply map_ext_in. intros [q x] hin. cbn [fst].
    destruct (eq_dec q p) as [-> |]; [|reflexivity]. exfalso. apply h, in_map_iff. exists (p, x). auto.
  Qed.
  Lemma subst_In p w bs q x : In p (map fst bs) ->
    (In (q, x) (subst p w bs) <-> (q = p /\ x = Some w) \/ (q <> p /\ In (q, x) bs)).
  Proof.
    intros hp. unfold subst. rewrite in_map_iff. split.
    - intros [[q' x'] [h hin]]. cbn [fst] in h. destruct (eq_dec q' p) as [-> | n].
      + injection h as <- <-. left. auto.
      + injection h as <- <-. right. auto.
    - intros [[-> ->] | [n hin]].
      + apply in_map_iff in hp as [[p' y] [hp hin]]. cbn in hp. subst p'. exists (p, y). cbn [fst].
        destruct (eq_dec p p); [auto | contradiction].
      + exists (q, x). cbn [fst]. destruct (eq_dec q p); [contradiction | auto].
  Qed.

  Lemma bind_names ps : forall args kw bs rest, bind_params ps args kw = Ok (bs, rest) -> map fst bs = map fst ps.
  Proof.
    induction ps as [|[p d] ps IH]; intros args kw bs rest h; cbn in h.
    - injection h as <- <-. reflexivity.
    - destruct args as [|a args].
      + destruct (dget p kw) as [v|]; [|destruct d; [|discriminate]];
          destruct (bind_params ps [] kw) as [[b r]|] eqn:hb; try discriminate; cbn in h; injection h as <- <-; cbn;
          f_equal; exact (IH _ _ _ _ hb).
      + destruct (dmem p kw); [discriminate|]. destruct (bind_params ps args kw) as [[b r]|] eqn:hb; try discriminate.
        cbn in h. injection h as <- <-. cbn. f_equal. exact (IH _ _ _ _ hb).
  Qed.

  (** only the number of positional arguments and the names of the keywords decide whether a call binds *)
  Lemma bind_fails ps : forall args args' kw kw' e, length args = length args' -> (forall q, dmem q kw = dmem q kw') ->
    bind_params ps args kw = Err e -> bind_params ps args' kw' = Err e.
  Proof.
    induction ps as [|[p d] ps IH]; intros args args' kw kw' e hl hk h; cbn in *; [discriminate|].
    destruct args as [|a args]; destruct args' as [|a' args']; try discriminate hl.
    - specialize (IH [] [] kw kw' e eq_refl hk).
      pose proof (hk p) as hp. unfold dmem in hp.
      destruct (dget p kw) as [v|], (dget p kw') as [v'|]; try discriminate hp.
      + destruct (bind_params ps [] kw) as [[b r]|]; cbn in h; [discriminate|]. rewrite (IH h). reflexivity.
      + destruct d; [|exact h]. destruct (bind_params ps [] kw) as [[b r]|]; cbn in h; [discriminate|]. rewrite (IH h). reflexivity.
    - rewrite <- hk. destruct (dmem p kw); [exact h|].
      injection hl as hl. specialize (IH args args' kw kw' e hl hk).
      destruct (bind_params ps args kw) as [[b r]|]; cbn in h; [discriminate|]. rewrite (IH h). reflexivity.
  Qed.

  (** the parameter is bound by keyword *)
  Lemma bind_kw ps : forall args kw bs rest p v w, NoDup (map fst ps) -> In p (map fst ps) -> dget p kw = Some v ->
    bind_params ps args kw = Ok (bs, rest) ->
    In (p, Some v) bs /\ bind_params ps args (dset p w kw) = Ok (subst p w bs, rest).
  Proof.
    assert (stay : forall ps args kw bs rest p w, ~ In p (map fst ps) -> bind_params ps args kw = Ok (bs, rest) ->
              bind_params ps args (dset p w kw) = Ok (bs, rest)).
    { clear. induction ps as [|[q d] ps IH]; intros args kw bs rest p w hn h; cbn in *; [exact h|].
      apply Decidable.not_or in hn as [hq hn].
      assert (hg : dget q (dset p w kw) = dget q kw) by (apply dget_dset_other; exact hq).
      unfold dmem in *. rewrite hg. destruct args as [|a args].
      - destruct (dget q kw); [|destruct d; [|exact h]];
          destruct (bind_params ps [] kw) as [[b r]|] eqn:hb; try discriminate; cbn in h;
          rewrite (IH _ _ _ _ p w hn hb); exact h.
      - destruct (dget q kw); [exact h|]. destruct (bind_params ps args kw) as [[b r]|] eqn:hb; try discriminate.
        cbn in h. rewrite (IH _ _ _ _ p w hn hb). exact h. }
    induction ps as [|[q d] ps IH]; intros args kw bs rest p v w nd hp hv h; [destruct hp|].
    cbn in nd. inversion nd as [|? ? hq nd']; subst. cbn in h |- *.
    destruct (eq_dec q p) as [-> | n].
    - clear IH hp. unfold dmem in *. rewrite hv in h. rewrite dget_dset_same. destruct args as [|a args]; [|discriminate].
      destruct (bind_params ps [] kw) as [[b r]|] eqn:hb; [|discriminate]. cbn in h. injection h as <- <-.
      split; [left; reflexivity|]. rewrite (stay _ _ _ _ _ p w hq hb). cbn. rewrite subst_cons.
      destruct (eq_dec p p); [|contradiction]. rewrite subst_none; [reflexivity|]. rewrite (bind_names _ _ _ _ _ hb). exact hq.
    - destruct hp as [hp | hp]; [contradiction|]. unfold dmem in *. rewrite (dget_dset_other p q) by exact n.
      destruct args as [|a args].
      + destruct (dget q kw) as [u|]; [|destruct d; [|discriminate]];
          destruct (bind_params ps [] kw) as [[b r]|] eqn:hb; try discriminate; cbn in h; injection h as <- <-;
          destruct (IH _ _ _ _ p v w nd' hp hv hb) as [h1 h2]; (split; [right; exact h1|]); rewrite h2; cbn; rewrite subst_cons;
          (destruct (eq_dec q p); [contradiction | reflexivity]).
      + destruct (dget q kw) as [u|]; [discriminate|].
        destruct (bind_params ps args kw) as [[b r]|] eqn:hb; try discriminate. cbn in h. injection h as <- <-.
        destruct (IH _ _ _ _ p v w nd' hp hv hb) as [h1 h2]. split; [right; exact h1|]. rewrite h2. cbn. rewrite subst_cons.
        destruct (eq_dec q p); [contradiction | reflexivity].
  Qed.

  (** the parameter is bound by position *)
  Lemma bind_pos ps : forall args kw bs rest i p v w, NoDup (map fst ps) -> nth_error (map fst ps) i = Some p ->
    nth_error args i = Some v -> bind_params ps args kw = Ok (bs, rest) ->
    In (p, Some v) bs /\ bind_params ps (firstn i args ++ w :: skipn (S i) args) kw = Ok (subst p w bs, rest).
  Proof.
    induction ps as [|[q d] ps IH]; intros args kw bs rest i p v w nd hi hv h; [destruct i; discriminate|].
    cbn in nd. inversion nd as [|? ? hq nd']; subst. destruct args as [|a args]; [destruct i; discriminate|].
    cbn in h. destruct (dmem q kw) eqn:hm; [discriminate|].
    destruct (bind_params ps args kw) as [[b r]|] eqn:hb; [|discriminate]. cbn in h. injection h as <- <-.
    destruct i as [|i].
    - cbn in hi, hv. injection hi as ->. injection hv as ->. split; [left; reflexivity|].
      change (firstn 0 (v :: args) ++ w :: skipn 1 (v :: args)) with (w :: args). cbn. rewrite hm, hb. cbn. rewrite subst_cons.
      destruct (eq_dec p p); [|contradiction]. rewrite subst_none; [reflexivity|]. rewrite (bind_names _ _ _ _ _ hb). exact hq.
    - cbn in hi, hv. destruct (IH _ _ _ _ i p v w nd' hi hv hb) as [h1 h2]. split; [right; exact h1|].
      change (firstn (S i) (a :: args) ++ w :: skipn (S (S i)) (a :: args)) with (a :: firstn i args ++ w :: skipn (S i) args).
      cbn [bind_params]. rewrite hm. rewrite h2. cbn. rewrite subst_cons. destruct (eq_dec q p) as [-> |]; [|reflexivity].
      exfalso. apply hq. apply nth_error_In in hi. exact hi.
  Qed.

  (** the parameter is left to its default *)
  Lemma bind_default ps : forall args kw bs rest i p, nth_error (map fst ps) i = Some p ->
    length args <= i -> dget p kw = None -> bind_params ps args kw = Ok (bs, rest) -> In (p, None) bs.
  Proof.
    induction ps as [|[q d] ps IH]; intros args kw bs rest i p hi hl hp h; [destruct i; discriminate|].
    cbn in h. destruct args as [|a args].
    - destruct i as [|i]; cbn in hi.
      + injection hi as ->. rewrite hp in h. destruct d; [|discriminate].
        destruct (bind_params ps [] kw) as [[b r]|] eqn:hb; [|discriminate]. cbn in h. injection h as <- <-. left. reflexivity.
      + assert (hb : exists b r, bind_params ps [] kw = Ok (b, r) /\ (exists x, bs = x :: b)).
        { destruct (dget q kw); [|destruct d; [|discriminate]];
            destruct (bind_params ps [] kw) as [[b r]|] eqn:hb; try discriminate; cbn in h; injection h as <- <-;
            exists b, r; (split; [reflexivity | eexists; reflexivity]). }
        destruct hb as [b [r [hb [x ->]]]]. right. apply (IH _ _ _ _ i p hi) in hb; [exact hb | cbn; lia | exact hp].
    - destruct (dmem q kw) eqn:hm; [discriminate|]. destruct (bind_params ps args kw) as [[b r]|] eqn:hb; [|discriminate].
      cbn in h. injection h as <- <-. destruct i as [|i]; [cbn in hl; lia|]. cbn in hi, hl. right.
      apply (IH _ _ _ _ i p hi) in hb; [exact hb | lia | exact hp].
  Qed.

  Lemma extra_dset (l : list string) p w kw : In p l ->
    filter (fun x : string * V => negb (mem (fst x) l)) (dset p w kw) = filter (fun x => negb (mem (fst x) l)) kw.
  Proof.
    intros hp. assert (hm : mem p l = true) by (apply mem_In; exact hp).
    induction kw as [|[k u] kw IH]; cbn.
    - rewrite hm. reflexivity.
    - destruct (eq_dec p k) as [<- | n]; cbn.
      + rewrite hm. reflexivity.
      + destruct (negb (mem k l)); rewrite IH; reflexivity.
  Qed.

  Lemma changed_subst p w bs rest (kw : dict string V) : In p (map fst bs) ->
    Changed p w {| b_params := bs; b_rest := rest; b_kw := kw |} {| b_params := subst p w bs; b_rest := rest; b_kw := kw |}.
  Proof.
    intros hp. unfold Changed. cbn. rewrite subst_fst. split; [reflexivity|]. split; [|split; reflexivity].
    intros q x. apply subst_In. exact hp.
  Qed.

  (** * calls *)
  Lemma call_kw sg args kw p v w b : Signature sg -> In p (map fst (s_params sg)) -> dget p kw = Some v ->
    call sg args kw = Runs b ->
    Binds b p v /\ exists b', call sg args (dset p w kw) = Runs b' /\ Changed p w b b'.
  Proof.
    intros hs hp hv h. unfold call in *. destruct (bind_params (s_params sg) args kw) as [[bs rest]|] eqn:hb; [|discriminate].
    destruct (bind_kw _ _ _ _ _ p v w hs hp hv hb) as [h1 h2]. rewrite h2, extra_dset by exact hp.
    destruct (negb (s_star sg) && _); [discriminate|]. destruct (negb (s_starstar sg) && _); [discriminate|].
    injection h as <-. split; [exact h1|]. eexists. split; [reflexivity|]. apply changed_subst.
    rewrite (bind_names _ _ _ _ _ hb). exact hp.
  Qed.
  Lemma call_pos sg args kw i p v w b : Signature sg -> nth_error (map fst (s_params sg)) i = Some p ->
    nth_error args i = Some v -> call sg args kw = Runs b ->
    Binds b p v /\ exists b', call sg (firstn i args ++ w :: skipn (S i) args) kw = Runs b' /\ Changed p w b b'.
  Proof.
    intros hs hp hv h. unfold call in *. destruct (bind_params (s_params sg) args kw) as [[bs rest]|] eqn:hb; [|discriminate].
    destruct (bind_pos _ _ _ _ _ i p v w hs hp hv hb) as [h1 h2]. rewrite h2.
    destruct (negb (s_star sg) && _); [discriminate|]. destruct (negb (s_starstar sg) && _); [discriminate|].
    injection h as <-. split; [exact h1|]. eexists. split; [reflexivity|]. apply changed_subst.
    rewrite (bind_names _ _ _ _ _ hb). apply nth_error_In in hp. exact hp.
  Qed.
  Lemma call_default sg args kw i p b : nth_error (map fst (s_params sg)) i = Some p -> length args <= i -> dget p kw = None ->
    call sg args kw = Runs b -> Defaults b p.
  Proof.
    intros hp hl hn h. unfold call in *. destruct (bind_params (s_params sg) args kw) as [[bs rest]|] eqn:hb; [|discriminate].
    pose proof (bind_default _ _ _ _ _ i p hp hl hn hb) as hd.
    destruct (negb (s_star sg) && _); [discriminate|]. destruct (negb (s_starstar sg) && _); [discriminate|].
    injection h as <-. exact hd.
  Qed.
  (** a call raises TypeError or runs, and which depends on the number of arguments and the names of the keywords *)
  Lemma bind_rest_len ps : forall args args' kw kw' bs bs' rest rest', length args = length args' ->
    bind_params ps args kw = Ok (bs, rest) -> bind_params ps args' kw' = Ok (bs', rest') -> length rest = length rest'.
  Proof.
    induction ps as [|[p d] ps IH]; intros args args' kw kw' bs bs' rest rest' hl h h'; cbn in *.
    - injection h as <- <-. injection h' as <- <-. exact hl.
    - destruct args as [|a args], args' as [|a' args']; try discriminate hl.
      + assert (hb : exists b, bind_params ps [] kw = Ok (b, rest)).
        { destruct (dget p kw); [|destruct d; [|discriminate]];
            destruct (bind_params ps [] kw) as [[b r]|] eqn:hb; try discriminate; cbn in h; injection h as <- <-; exists b; reflexivity. }
        assert (hb' : exists b, bind_params ps [] kw' = Ok (b, rest')).
        { destruct (dget p kw'); [|destruct d; [|discriminate]];
            destruct (bind_params ps [] kw') as [[b r]|] eqn:hb'; try discriminate; cbn in h'; injection h' as <- <-; exists b; reflexivity. }
        destruct hb as [b hb], hb' as [b' hb']. exact (IH _ _ _ _ _ _ _ _ eq_refl hb hb').
      + destruct (dmem p kw); [discriminate|]. destruct (dmem p kw'); [discriminate|]. injection hl as hl.
        destruct (bind_params ps args kw) as [[b r]|] eqn:hb; try discriminate. cbn in h. injection h as <- <-.
        destruct (bind_params ps args' kw') as [[b' r']|] eqn:hb'; try discriminate. cbn in h'. injection h' as <- <-.
        exact (IH _ _ _ _ _ _ _ _ hl hb hb').
  Qed.
  Lemma bind_type_error ps : forall args kw e, bind_params ps args kw = Err e -> e = TypeError.
  Proof.
    induction ps as [|[p d] ps IH]; intros args kw e h; cbn in h; [discriminate|].
    destruct args as [|a args].
    - destruct (dget p kw); [|destruct d; [|injection h as <-; reflexivity]];
        destruct (bind_params ps [] kw) as [[b r]|] eqn:hb; try discriminate; cbn in h; injection h as <-; exact (IH _ _ _ hb).
    - destruct (dmem p kw); [injection h as <-; reflexivity|].
      destruct (bind_params ps args kw) as [[b r]|] eqn:hb; try discriminate; cbn in h; injection h as <-; exact (IH _ _ _ hb).
  Qed.
  Lemma call_raises sg args args' kw kw' : length args = length args' -> (forall q, dmem q kw = dmem q kw') ->
    (match filter (fun x => negb (mem (fst x) (map fst (s_params sg)))) kw with [] => true | _ => false end
     = match filter (fun x => negb (mem (fst x) (map fst (s_params sg)))) kw' with [] => true | _ => false end) ->
    call sg args kw = Raises TypeError -> call sg args' kw' = Raises TypeError.
  Proof.
    intros hl hk he h. unfold call in *. destruct (bind_params (s_params sg) args kw) as [[bs rest]|e] eqn:hb.
    - destruct (bind_params (s_params sg) args' kw') as [[bs' rest']|e'] eqn:hb'.
      + pose proof (bind_rest_len _ _ _ _ _ _ _ _ _ hl hb hb') as hr.
        destruct rest as [|x rest], rest' as [|x' rest']; try discriminate hr; rewrite he in h;
          destruct (negb (s_star sg)); cbn in *; try reflexivity; try discriminate;
          (destruct (negb (s_starstar sg) && _); [reflexivity | discriminate]).
      + apply bind_type_error in hb'. subst. reflexivity.
    - rewrite (bind_fails _ _ _ _ _ _ hl hk hb). exact h.
  Qed.
  Lemma call_type_error sg args kw e : call sg args kw = Raises e -> e = TypeError.
  Proof.
    unfold call. destruct (bind_params (s_params sg) args kw) as [[bs rest]|e'] eqn:hb; intros h.
    - destruct (negb (s_star sg) && _); [injection h as <-; reflexivity|].
      destruct (negb (s_starstar sg) && _); [injection h as <-; reflexivity | discriminate].
    - injection h as <-. exact (bind_type_error _ _ _ _ hb).
  Qed.
  Lemma dmem_dset_in p w kw q : dmem p kw = true -> dmem q (dset p w kw) = dmem q kw.
  Proof.
    intros hp. unfold dmem in *. rewrite dget_dset. destruct (eq_dec q p) as [-> |]; [|reflexivity].
    destruct (dget p kw); [reflexivity | discriminate].
  Qed.

  Lemma index_of_spec s (l : list string) : In s l -> exists i, index_of s l = Some i /\ nth_error l i = Some s.
  Proof.
    induction l as [|x l IH]; intros h; [destruct h|]. cbn. destruct (eq_dec x s) as [-> | n].
    - exists 0. split; reflexivity.
    - destruct h as [h | h]; [contradiction|]. destruct (IH h) as [i [h1 h2]]. rewrite h1. exists (S i). auto.
  Qed.
  Lemma index_of_none s (l : list string) : ~ In s l -> index_of s l = None.
  Proof.
    induction l as [|x l IH]; intros h; cbn; [reflexivity|]. destruct (eq_dec x s) as [-> | n].
    - exfalso. apply h. left. reflexivity.
    - rewrite IH; [reflexivity|]. intros hin. apply h. right. exact hin.
  Qed.

  Lemma py_get_nat i (l : list V) v : nth_error l i = Some v -> py_get (Z.of_nat i) l = Ok v.
  Proof.
    intros h. unfold py_get. rewrite py_pos_nat; [cbn; rewrite h; reflexivity|].
    apply nth_error_Some. rewrite h. discriminate.
  Qed.
  Lemma py_set_nat i w (l : list V) : i < length l -> py_set (Z.of_nat i) w l = Ok (firstn i l ++ w :: skipn (S i) l).
  Proof. intros h. unfold py_set. rewrite py_pos_nat by exact h. reflexivity. Qed.
End Proofs.
