(** C43: types are built once, recursive references give proxies. *)
From Verif Require Import Base TB_Model TB_Spec TB_Proofs.
Local Open Scope list_scope.

Section C43.
  Variable resolve : uri -> res sch.
  Variable fails : uri -> list cls -> option exn.
  Variable underscore : uri -> uri.
  Notation B := (build resolve fails underscore).
  Notation L := (load resolve fails underscore).
  Notation run := (tb_run resolve fails underscore).
  Notation stp := (tb_step resolve fails underscore).

  Definition depths (dom : list uri) : nat := list_max (map (fun u => match resolve u with Ok s => depth s | _ => 0 end) dom).
  Lemma depths_le dom u s : In u dom -> resolve u = Ok s -> depth s <= depths dom.
  Proof.
    intros i e. unfold depths. pose proof (proj1 (list_max_le (map (fun u => match resolve u with Ok s => depth s | _ => 0 end) dom) _) (Nat.le_refl _)) as h.
    rewrite Forall_forall in h. specialize (h (depth s)). apply h. apply in_map_iff. exists u. rewrite e. split; [reflexivity|exact i].
  Qed.

  (** Building terminates whatever the references, cyclic or not, and from whatever state: with enough depth the result no
      longer depends on the depth allowed. *)
  Theorem type_build_terminates : forall dom id s,
    Closed resolve dom -> (forall u, resolve u <> Err OutOfFuel) -> (forall u ps, fails u ps <> Some OutOfFuel) ->
    incl (mentions id s) dom ->
    exists N, forall n st, N <= n -> fst (B n id (Some s) st) <> Err OutOfFuel /\ B n id (Some s) st = B N id (Some s) st.
  Proof.
    intros dom id s cl rf ff hi.
    set (D := S (depths dom) * length dom).
    assert (fu : forall n st, 1 + depth s + D <= n -> fst (B n id (Some s) st) <> Err OutOfFuel).
    { intros n st le. apply (build_fuel resolve fails underscore dom (depths dom)); [|exact rf|exact ff|].
      - intros u s' i e. split; [exact (cl u s' i e)|exact (depths_le dom u s' i e)].
      - split; [exact hi|]. unfold left_in. pose proof (filter_length_le (fun u => negb (dmem u (onc st))) dom). unfold D in le. nia. }
    exists (1 + depth s + D). intros n st le. split; [apply fu; exact le|].
    apply (build_more_le resolve fails underscore _ _ le). apply fu. lia.
  Qed.
  Theorem type_load_terminates : forall dom id,
    Closed resolve dom -> (forall u, resolve u <> Err OutOfFuel) -> (forall u ps, fails u ps <> Some OutOfFuel) ->
    In id dom -> exists N, forall n st, N <= n -> fst (L n id st) <> Err OutOfFuel.
  Proof.
    intros dom id cl rf ff hi. exists (1 + S (depths dom) * length dom). intros n st le.
    apply (load_fuel dom (depths dom) n); [|exact hi|].
    - apply build_fuel; [|exact rf|exact ff]. intros u s' i e. split; [exact (cl u s' i e)|exact (depths_le dom u s' i e)].
    - unfold left_in. pose proof (filter_length_le (fun u => negb (dmem u (onc st))) dom). nia.
  Qed.

  (** [k] is not the underscored form of another id (see [type_overwritten_refuted]) *)
  Definition Own (k : uri) : Prop := forall x, underscore x = k -> x = k.
  Definition redefines (k : uri) (o : op) : Prop := exists s, o = ODefine k s.

  Lemma run_kept k : Own k -> forall n os st, (forall o, In o os -> ~ redefines k o) -> kept k st (run n os st).
  Proof.
    intros ow n os. induction os as [|o os IH]; intros st h; cbn [tb_run]; [apply kept_refl|].
    eapply kept_trans; [|apply IH; intros o' i; apply h; right; exact i].
    specialize (h o (or_introl eq_refl)). destruct o as [id s|id|id s].
    - apply build_kept. exact ow.
    - cbn. apply load_kept. apply build_kept. exact ow.
    - apply define_kept; [exact ow|]. intros ->. apply h. exists s. reflexivity.
  Qed.

  (** The first type obtained for an id by [load], or by [build] with a schema that is not boolean, is the one returned by
      every later [load] and [build] of that id, whatever schema is given and whatever was built (or failed to) in between. *)
  Theorem type_built_once : forall k n st c st', Own k ->
    (L n k st = (Ok c, st') \/ exists s, B n k s st = (Ok c, st') /\ (forall i b, c <> Const i b)) ->
    onc st = [] ->
    forall os m s, (forall o, In o os -> ~ redefines k o) ->
      fst (B (S m) k s (run n os st')) = Ok c /\ fst (L m k (run n os st')) = Ok c.
  Proof.
    intros k n st c st' ow h ho os m s hn.
    assert (g : dget k (reg st') = Some c).
    { destruct h as [h|(s0 & h & nc)].
      - unfold load, load_with in h. destruct (dget k (reg st)) eqn:g; [inversion h; subst; exact g|]. rewrite ho in h. cbn in h.
        destruct (B n k None st) as [[c1|e] st1]; inversion h; subst. cbn. apply dget_dset_same.
      - destruct n as [|n]; [discriminate|]. cbn [build] in h. destruct (dget k (reg st)) eqn:g; [inversion h; subst; exact g|]. rewrite ho in h. cbn in h.
        destruct (match s0 with Some s => Ok s | None => resolve k end) as [s1|e]; [|discriminate].
        destruct s1 as [b|t r rest|t l]; [inversion h; subst; destruct (nc (made st) b eq_refl)| |];
          match type of h with context[construct ?f ?u ?b ?i ?s ?x] => destruct (construct f u b i s x) as [[c1|e] st1] end;
          inversion h; subst; cbn; apply dget_dset_same. }
    destruct (run_kept k ow n os st' hn) as [h1 _]. specialize (h1 _ g).
    split; [cbn [build]; rewrite h1; reflexivity|unfold load, load_with; rewrite h1; reflexivity].
  Qed.

  (** While an id is under construction, asking for it again makes no new construction: the answer is a proxy for it when its
      schema states its type, and the table of types is unchanged. *)
  Theorem type_under_construction : forall id n st s schema, dget id (reg st) = None -> dget id (onc st) = Some s -> is_typed s = true ->
    exists i st', B (S n) id schema st = (Ok (Proxy i id), st') /\ L n id st = (Ok (Proxy i id), st') /\ reg st' = reg st /\ onc st' = onc st.
  Proof.
    intros id n st s schema g o t. exists (made st), {| reg := reg st; onc := onc st; made := S (made st) |}.
    unfold load, load_with. cbn [build]. rewrite g. unfold dmem. rewrite o. unfold proxy. rewrite o, t. auto.
  Qed.

  (** After a history in which every call succeeded, nothing is left under construction and every proxy inside a registered
      type stands for a registered type. *)
  Theorem type_proxies_resolve : forall n os,
    all_ok resolve fails underscore n os tb0 ->
    let st := run n os tb0 in
    onc st = [] /\
    forall k c u, dget k (reg st) = Some c -> Mentions c u -> exists c', proxy_type u st = Some c'.
  Proof.
    intros n os. 
    assert (G : forall st, onc st = [] -> Inv (fun _ => False) st -> all_ok resolve fails underscore n os st ->
                onc (run n os st) = [] /\ Inv (fun _ => False) (run n os st)).
    { induction os as [|o os IH]; intros st ho hi ok; cbn [tb_run all_ok] in *; [split; assumption|].
      destruct ok as [ok1 ok2].
      assert (hh : onc (snd (stp n o st)) = [] /\ Inv (fun _ => False) (snd (stp n o st))).
      { destruct o as [id s|id|id s]; cbn [tb_step] in *.
        - pose proof (build_good resolve fails underscore (fun _ => False) n id s st hi) as (_ & h2 & _).
          pose proof (build_onc resolve fails underscore n id s st) as h3. destruct (B n id s st) as [[c|e] st1]; [|discriminate].
          cbn [snd]. rewrite (h3 _ _ eq_refl). split; [exact ho|exact h2].
        - pose proof (load_good (fun _ => False) (B n) (build_good resolve fails underscore (fun _ => False) n) id st hi) as (_ & h2 & _).
          pose proof (load_onc (B n) (build_onc resolve fails underscore n) id st) as h3. unfold load in *.
          destruct (load_with (B n) id st) as [[c|e] st1]; [|discriminate].
          cbn [snd]. rewrite (h3 _ _ eq_refl). split; [exact ho|exact h2].
        - set (st0 := {| reg := ddel id (reg st); onc := onc st; made := made st |}) in *.
          assert (hi0 : Inv (fun u => u = id) st0).
          { intros k c u g m. cbn in g. rewrite dget_ddel in g. destruct (eq_dec k id); [discriminate|].
            destruct (hi k c u g m) as [h|[h|[]]]; [|rewrite ho in h; cbn in h; congruence].
            destruct (eq_dec u id) as [->|nu]; [right; right; reflexivity|]. left. cbn. rewrite dget_ddel. destruct (eq_dec u id); congruence. }
          assert (go : forall s0, (forall b, s0 <> SBool b) -> is_ok (fst (B n id (Some s0) st0)) = true ->
                     onc (snd (B n id (Some s0) st0)) = [] /\ Inv (fun _ => False) (snd (B n id (Some s0) st0))).
          { intros s0 ns ok. 
            pose proof (build_good resolve fails underscore (fun u => u = id) n id (Some s0) st0 hi0) as (_ & h2 & _).
            pose proof (build_onc resolve fails underscore n id (Some s0) st0) as h3.
            assert (hr : dget id (reg (snd (B n id (Some s0) st0))) <> None).
            { destruct n as [|n']; [discriminate|]. cbn [build] in *. change (dget id (reg st0)) with (dget id (ddel id (reg st))) in *.
              assert (z : dget id (ddel id (reg st)) = None) by (rewrite dget_ddel; destruct (eq_dec id id); congruence).
              rewrite z in *. change (onc st0) with (onc st) in *. rewrite ho in *. cbn [dmem dget] in *.
              destruct s0 as [b|t r rest|t l]; [destruct (ns b eq_refl)| |];
              match goal with |- context[construct ?f ?u ?b ?i ?s ?x] => destruct (construct f u b i s x) as [[c1|e] st1] end;
              try discriminate; cbn; rewrite dget_dset_same; discriminate. }
            destruct (B n id (Some s0) st0) as [[c|e] st1]; [|discriminate]. cbn [snd] in *. specialize (h3 _ _ eq_refl). cbn in h3. rewrite h3.
            split; [exact ho|]. intros k c' u g m. destruct (h2 k c' u g m) as [h|[h|h]]; [left; exact h|right; left; exact h|subst; left; exact hr]. }
          destruct s as [b|t r rest|t l]; [discriminate| |]; apply go; try exact ok1; intros b; discriminate. }
      destruct hh as [h1 h2]. apply IH; assumption. }
    intros ok. destruct (G tb0 eq_refl) as [h1 h2]; [intros k c u g; discriminate|exact ok|]. cbv zeta. split; [exact h1|].
    intros k c u g m. unfold proxy_type. destruct (h2 k c u g m) as [h|[h|[]]]; [|rewrite h1 in h; cbn in h; congruence].
    destruct (dget u (reg (run n os tb0))) as [c'|]; [exists c'; reflexivity|congruence].
  Qed.

  (** A construction that raises leaves its id marked for ever: whatever is done afterwards, even defining the class again, the id
      never gets a type; asking for it gives an unresolvable proxy, or KeyError when the schema states no type. *)
  Theorem type_failed_for_ever : forall k n s st e st', Own k ->
    dget k (reg st) = None -> (dget k (onc st) = None -> forall b, s <> SBool b) ->
    B (S n) k (Some s) st = (Err e, st') ->
    forall os m o, let st2 := run m os st' in
      proxy_type k st2 = None /\
      ((exists sc, o = OBuild k sc) \/ o = OLoad k \/ (exists sc, (forall b, sc <> SBool b) /\ o = ODefine k sc) ->
       (exists i, fst (stp (S m) o st2) = Ok (Proxy i k)) \/ fst (stp (S m) o st2) = Err KeyError).
  Proof.
    intros k n s st e st' ow g ns h os m o.
    assert (hm : dget k (reg st') = None /\ exists s1, dget k (onc st') = Some s1).
    { cbn [build] in h. rewrite g in h. destruct (dmem k (onc st)) eqn:dm.
      - unfold dmem in dm. destruct (dget k (onc st)) as [s1|] eqn:o1; [|discriminate]. unfold proxy in h. rewrite o1 in h.
        destruct (is_typed s1); inversion h; subst. split; [exact g|exists s1; exact o1].
      - apply dmem_get in dm. specialize (ns dm).
        destruct s as [b|t r rest|t l]; [destruct (ns b eq_refl)| |];
          match type of h with context[construct ?f ?u ?b ?i ?s ?x] =>
            pose proof (construct_kept fails underscore k b (build_kept resolve fails underscore k ow n) i s x) as hk;
            destruct (construct f u b i s x) as [[c1|e1] st1] end; inversion h; subst; cbn [fst snd] in hk;
          (destruct hk as [_ hk]; [right; exists e; reflexivity|]); 
          (destruct (hk g _ (dget_dset_same _ _ _)) as [q1 q2]; split; [exact q1|eexists; exact q2]). }
    assert (P : forall os st1, (dget k (reg st1) = None /\ exists s1, dget k (onc st1) = Some s1) ->
                dget k (reg (run m os st1)) = None /\ exists s1, dget k (onc (run m os st1)) = Some s1).
    { clear - ow. induction os as [|o os IH]; intros st1 [h1 (s1 & h2)]; cbn [tb_run]; [split; [exact h1|exists s1; exact h2]|].
      apply IH. assert (kk : kept k st1 (snd (stp m o st1)) -> dget k (reg (snd (stp m o st1))) = None /\ exists s1, dget k (onc (snd (stp m o st1))) = Some s1).
      { intros [_ q]. destruct (q h1 s1 h2) as [q1 q2]. split; [exact q1|exists s1; exact q2]. }
      destruct o as [id sc|id|id sc].
      - apply kk. apply build_kept. exact ow.
      - apply kk. apply load_kept. apply build_kept. exact ow.
      - apply kk. destruct (eq_dec id k) as [e1|n1]; [subst|apply define_kept; assumption].
        cbn [tb_step]. assert (er : ddel k (reg st1) = reg st1) by (apply ddel_notin; apply dget_None; exact h1).
        assert (es : {| reg := ddel k (reg st1); onc := onc st1; made := made st1 |} = st1) by (rewrite er; destruct st1; reflexivity).
        rewrite es. destruct sc; [apply kept_refl| |]; apply build_kept; exact ow. }
    intros st2. destruct (P os st' hm) as [r1 (s1 & r2)]. fold st2 in r1, r2. split; [exact r1|].
    assert (Q : forall r, r = fst (proxy k st2) -> (exists i, r = Ok (Proxy i k)) \/ r = Err KeyError).
    { intros r ->. unfold proxy. rewrite r2. destruct (is_typed s1); [left; eexists; reflexivity|right; reflexivity]. }
    assert (D : dmem k (onc st2) = true) by (unfold dmem; rewrite r2; reflexivity).
    intros [(sc & ->)|[->|(sc & nb & ->)]]; apply Q; cbn [tb_step].
    - cbn [build]. rewrite r1, D. reflexivity.
    - unfold load, load_with. rewrite r1, D. reflexivity.
    - assert (er : ddel k (reg st2) = reg st2) by (apply ddel_notin; apply dget_None; exact r1). rewrite er.
      destruct sc as [b|t r rest|t l]; [destruct (nb b eq_refl)| |]; cbn [build reg onc]; rewrite r1, D; unfold proxy; cbn; rewrite r2; destruct (is_typed s1); reflexivity.
  Qed.
End C43.
Print Assumptions type_build_terminates.
Print Assumptions type_load_terminates.
Print Assumptions type_built_once.
Print Assumptions type_under_construction.
Print Assumptions type_proxies_resolve.
Print Assumptions type_failed_for_ever.

(** ** a store with a recursive object type: a.b refers to a, and extends c *)
Local Open Scope string_scope. Local Open Scope list_scope.
Definition ua := chars "http://x#/$defs/a".
Definition uc := chars "http://x#/$defs/b".
Definition ub := chars "http://x#/$defs/B".
Definition xstore (u : uri) : res sch :=
  if beq u ua then Ok (SNode true [LoadRef (chars "#/$defs/b"); Sub (chars "/properties/b") (SRef false (chars "#/$defs/a") None);
                                   Sub (chars "/additionalProperties") (SBool true)])
  else if beq u uc then Ok (SNode true [Sub (chars "/properties/d") (SRef true (chars "#/$defs/a") (Some [chars "#/$defs/b"]))])
  else if beq u ub then Ok (SRef false (chars "#/$defs/b") (Some []))
  else Err InvalidValue.
Definition nofail (u : uri) (ps : list cls) : option exn := None.
Example xstore_closed : Closed xstore [ua; uc; ub].
Proof.
  intros u s [<-|[<-|[<-|[]]]] e; vm_compute in e; inversion e; subst; intros v hv; vm_compute in hv; vm_compute; tauto.
Qed.
(** [a] and [c] mutually recursive: both are built, the inner references are proxies *)
Definition xrun := tb_run xstore nofail (fun u => u) 9 [OLoad ua] tb0.
Example xrun_ok : all_ok xstore nofail (fun u => u) 9 [OLoad ua] tb0.
Proof. vm_compute. tauto. Qed.
Example xrun_types : map fst (reg xrun) = [uc ++ chars "/properties/d"; uc; ua ++ chars "/properties/b"; ua].
Proof. vm_compute. reflexivity. Qed.
Example xrun_proxy : exists c, dget ua (reg xrun) = Some c /\ Mentions c ua.
Proof.
  eexists. split; [vm_compute; reflexivity|]. eapply M_part; [right; left; reflexivity|]. apply M_proxy.
Qed.
Example xrun_onc : onc xrun = []. Proof. vm_compute. reflexivity. Qed.

(** A schema without 'type' that refers to itself cannot be built: the proxy raises KeyError instead *)
Theorem type_recursion_untyped_refuted : exists resolve id, Closed resolve [id] /\ resolve id <> Err KeyError /\
  forall n underscore, n >= 2 -> fst (load resolve nofail underscore n id tb0) = Err KeyError.
Proof.
  exists (fun u => if beq u ua then Ok (SNode false [Sub (chars "/properties/b") (SRef false (chars "#/$defs/a") None)]) else Err InvalidValue), ua.
  split; [|split; [vm_compute; discriminate|]].
  - intros u s [<-|[]] e. vm_compute in e. inversion e; subst. intros v hv. vm_compute in hv. vm_compute. tauto.
  - intros n un le. destruct n as [|[|n]]; [lia|lia|]. reflexivity.
Qed.
Print Assumptions type_recursion_untyped_refuted.

(** Extending a referenced type also registers it under the underscored id, replacing the type of that id *)
(** inflection.underscore on an id in which no capital follows a letter or digit: lower case, '-' to '_' *)
Definition underscored (u : uri) : uri :=
  map (fun c => let n := nat_of_ascii c in
                if Nat.leb 65 n && Nat.leb n 90 then ascii_of_nat (n + 32) else if Nat.eqb n 45 then ascii_of_nat 95 else c) u.
Theorem type_overwritten_refuted : exists n os c1 c2, c1 <> c2 /\
  fst (load xstore nofail underscored n uc tb0) = Ok c1 /\
  fst (load xstore nofail underscored n uc (tb_run xstore nofail underscored n os (snd (load xstore nofail underscored n uc tb0)))) = Ok c2 /\
  (forall o, In o os -> ~ redefines uc o).
Proof.
  exists 9, [OLoad ub]. 
  destruct (fst (load xstore nofail underscored 9 uc tb0)) as [c1|e] eqn:e1; [|vm_compute in e1; discriminate].
  destruct (fst (load xstore nofail underscored 9 uc (tb_run xstore nofail underscored 9 [OLoad ub] (snd (load xstore nofail underscored 9 uc tb0))))) as [c2|e] eqn:e2;
    [|vm_compute in e2; discriminate].
  exists c1, c2. split; [|split; [reflexivity|split; [reflexivity|]]].
  - intros e. subst. rewrite <- e1 in e2. vm_compute in e2. discriminate.
  - intros o [<-|[]] [s h]. discriminate.
Qed.
Print Assumptions type_overwritten_refuted.

(** [build] with a boolean schema makes a new type each time *)
Theorem type_boolean_refuted : exists id c1 c2, c1 <> c2 /\
  fst (build xstore nofail (fun u => u) 1 id (Some (SBool true)) tb0) = Ok c1 /\
  fst (build xstore nofail (fun u => u) 1 id (Some (SBool true)) (snd (build xstore nofail (fun u => u) 1 id (Some (SBool true)) tb0))) = Ok c2.
Proof. exists ua, (Const 0 true), (Const 1 true). split; [discriminate|]. split; reflexivity. Qed.
Print Assumptions type_boolean_refuted.

(** a class cannot be defined from a boolean schema, and the attempt changes nothing for any later call *)
Theorem type_define_boolean : forall resolve fails underscore n id b st os,
  fst (tb_step resolve fails underscore n (ODefine id (SBool b)) st) = Err AttributeError /\
  tb_run resolve fails underscore n (ODefine id (SBool b) :: os) st = tb_run resolve fails underscore n os st.
Proof. intros. split; reflexivity. Qed.
Print Assumptions type_define_boolean.

(** the failing case is met: a class that cannot be made leaves its id marked *)
Example failing : fst (build xstore (fun u ps => Some TypeError) (fun u => u) 3 ua (Some (SNode true [])) tb0) = Err TypeError.
Proof. reflexivity. Qed.
