(** C45 (session factory) and C46 (scoped sessions). *)
From Verif Require Import Base PyVal Session_Model.
Local Open Scope string_scope. Local Open Scope list_scope.

Lemma dget_dupdate {V} (k : string) (e d : dict string V) : dwf e -> dget k (dupdate d e) = match dget k e with Some v => Some v | None => dget k d end.
Proof.
  unfold dupdate. revert d. induction e as [|[k0 v0] e IH]; intros d w; [reflexivity|]. cbn [fold_left]. inversion w as [|? ? ni w']; subst.
  rewrite IH by exact w'. cbn [fst snd dget]. destruct (eq_dec k k0) as [->|n].
  - assert (g : dget k0 e = None) by (apply dget_None; exact ni). rewrite g, dget_dset_same. reflexivity.
  - rewrite dget_dset_other by congruence. reflexivity.
Qed.
Lemma dwf_dupdate {V} (e d : dict string V) : dwf d -> dwf (dupdate d e).
Proof. unfold dupdate. revert d. induction e as [|p e IH]; intros d w; [exact w|]. cbn. apply IH. apply dwf_dset. exact w. Qed.

(** the factory's loop, for one option *)
Lemma loop_other k : k <> "info" -> forall kw loc o, dwf kw -> maker_loop kw loc = Ok o ->
  dget k o = match dget k loc with Some v => Some v | None => dget k kw end.
Proof.
  intros nk kw. induction kw as [|[k0 v0] kw IH]; intros loc o w h; cbn [maker_loop] in h.
  { inversion h; subst. destruct (dget k o); reflexivity. }
  inversion w as [|? ? ni w']; subst. cbn [dget].
  destruct (beq k0 "info" && dmem "info" loc) eqn:c.
  - destruct (dget "info" loc) as [li|]; [|discriminate]. destruct (merge_info v0 li) as [d|]; [|discriminate]. cbn [rbind] in h.
    rewrite (IH _ _ w' h), dget_dset_other by congruence. apply andb_true_iff in c. destruct c as [c _]. apply beq_true in c. subst.
    destruct (eq_dec k "info"); [congruence|reflexivity].
  - rewrite (IH _ _ w' h). destruct (dmem k0 loc) eqn:dm.
    + destruct (dget k loc) eqn:g; [reflexivity|]. destruct (eq_dec k k0) as [->|]; [|reflexivity]. unfold dmem in dm. rewrite g in dm. discriminate.
    + rewrite dget_dset. destruct (eq_dec k k0) as [->|]; [|reflexivity]. unfold dmem in dm. destruct (dget k0 loc); [discriminate|reflexivity].
Qed.
Lemma loop_info_absent : forall kw loc o, ~ In "info" (dkeys kw) -> maker_loop kw loc = Ok o -> dget "info" o = dget "info" loc.
Proof.
  induction kw as [|[k0 v0] kw IH]; intros loc o ni h; cbn [maker_loop] in h; [inversion h; reflexivity|].
  destruct (beq_spec EqDec_string k0 "info") as [->|n]; [destruct ni; left; reflexivity|]. cbn [andb] in h.
  rewrite (IH _ _ (fun i => ni (or_intror i)) h). destruct (dmem k0 loc); [reflexivity|]. apply dget_dset_other. congruence.
Qed.
Lemma loop_info : forall kw loc o, dwf kw -> maker_loop kw loc = Ok o ->
  match dget "info" loc, dget "info" kw with
  | Some li, Some v => exists d, merge_info v li = Ok d /\ dget "info" o = Some d
  | Some li, None => dget "info" o = Some li
  | None, fv => dget "info" o = fv
  end.
Proof.
  induction kw as [|[k0 v0] kw IH]; intros loc o w h; cbn [maker_loop] in h.
  { inversion h; subst. cbn. destruct (dget "info" o); reflexivity. }
  inversion w as [|? ? ni w']; subst. cbn [dget].
  destruct (beq_spec EqDec_string k0 "info") as [->|n]; cbn [andb] in h.
  - destruct (eq_dec "info" "info"); [|congruence]. unfold dmem in h. destruct (dget "info" loc) as [li|] eqn:g.
    + destruct (merge_info v0 li) as [d|]; [|discriminate]. cbn [rbind] in h. exists d. split; [reflexivity|].
      rewrite (loop_info_absent _ _ _ ni h). apply dget_dset_same.
    + rewrite (loop_info_absent _ _ _ ni h). apply dget_dset_same.
  - destruct (eq_dec "info" k0); [congruence|]. specialize (IH _ _ w' h). destruct (dmem k0 loc); [exact IH|].
    rewrite dget_dset_other in IH by congruence. exact IH.
Qed.

(** * C45 *)
(** An option of a new session: the call's value when given, else the factory's. *)
Theorem maker_option : forall kw loc o k, dwf kw -> maker_call kw loc = Ok o -> k <> "info" ->
  dget k o = match dget k loc with Some v => Some v | None => dget k kw end.
Proof. intros kw loc o k w h n. apply loop_other; assumption. Qed.
(** 'info': merged entry by entry, the call's entries winning, when both give one; else as the other options. *)
Theorem maker_info : forall kw loc o, dwf kw -> maker_call kw loc = Ok o ->
  (forall d e, dget "info" kw = Some (VDict d) -> dget "info" loc = Some (VDict e) -> dwf e ->
     exists m, dget "info" o = Some (VDict m) /\
       forall j, dget j m = match dget j e with Some v => Some v | None => dget j d end) /\
  (dget "info" kw = None -> dget "info" o = dget "info" loc) /\
  (dget "info" loc = None -> dget "info" o = dget "info" kw).
Proof.
  intros kw loc o w h. pose proof (loop_info kw loc o w h) as L. split; [|split].
  - intros d e gk gl we. rewrite gk, gl in L. destruct L as (m & hm & g). cbn in hm. inversion hm; subst.
    exists (dupdate d e). split; [exact g|]. intros j. apply dget_dupdate. exact we.
  - intros gk. rewrite gk in L. destruct (dget "info" loc); exact L.
  - intros gl. rewrite gl in L. exact L.
Qed.
(** Creating succeeds unless both give an 'info' that cannot be merged. *)
Theorem maker_succeeds : forall kw loc, dwf kw ->
  (forall v li, dget "info" kw = Some v -> dget "info" loc = Some li -> exists d e, v = VDict d /\ li = VDict e) ->
  exists o, maker_call kw loc = Ok o.
Proof.
  unfold maker_call. induction kw as [|[k0 v0] kw IH]; intros loc w h; cbn [maker_loop]; [exists loc; reflexivity|].
  inversion w as [|? ? ni w']; subst.
  destruct (beq_spec EqDec_string k0 "info") as [->|n]; cbn [andb].
  - assert (A : forall loc', exists o, maker_loop kw loc' = Ok o).
    { intros loc'. apply IH; [exact w'|]. intros v li g. apply dget_Some_key in g. tauto. }
    unfold dmem. destruct (dget "info" loc) as [li|] eqn:g; [|apply A].
    destruct (h v0 li) as (d & e & -> & ->); [reflexivity|reflexivity|]. cbn [merge_info rbind]. apply A.
  - apply IH; [exact w'|]. intros v li gk gl. apply (h v li).
    + cbn [dget]. destruct (eq_dec "info" k0); [congruence|exact gk].
    + destruct (dmem k0 loc); [exact gl|]. rewrite dget_dset_other in gl by congruence. exact gl.
Qed.
(** Otherwise it raises: AttributeError if the factory's 'info' is no dictionary, else TypeError. *)
Theorem maker_fails : forall kw loc v li, dwf kw -> dget "info" kw = Some v -> dget "info" loc = Some li ->
  ((forall d, v <> VDict d) -> maker_call kw loc = Err AttributeError) /\
  (forall d, v = VDict d -> (forall e, li <> VDict e) -> maker_call kw loc = Err TypeError).
Proof.
  unfold maker_call. intros kw loc v li. revert loc. induction kw as [|[k0 v0] kw IH]; intros loc w gk gl; [discriminate|]. cbn [maker_loop]. inversion w as [|? ? ni w']; subst.
  destruct (beq_spec EqDec_string k0 "info") as [->|n]; cbn [andb].
  - cbn [dget] in gk. destruct (eq_dec "info" "info"); [|congruence]. injection gk as ->. unfold dmem. rewrite gl. split.
    + intros h. destruct v as [| | | | | |dd|]; try reflexivity. destruct (h dd eq_refl).
    + intros d -> h. destruct li as [| | | | | |dd|]; try reflexivity. destruct (h dd eq_refl).
  - cbn [dget] in gk. destruct (eq_dec "info" k0) as [e|_]; [congruence|]. apply IH; [exact w'|exact gk|].
    destruct (dmem k0 loc); [exact gl|]. rewrite dget_dset_other by congruence. exact gl.
Qed.
Print Assumptions maker_fails.
(** Only the configure() calls of a history decide what later sessions get: the last one giving an option wins. *)
Fixpoint configured (kw : opts) (os : list mk_op) (k : string) : option pyval :=
  match os with
  | [] => dget k kw
  | Create _ :: os' => configured kw os' k
  | Configure n :: os' => match dget k n with
                          | Some v => if existsb (fun o => match o with Configure n' => dmem k n' | _ => false end) os' then configured kw os' k else Some v
                          | None => configured kw os' k
                          end
  end.
Theorem maker_history : forall os kw k, dwf kw -> (forall n, In (Configure n) os -> dwf n) -> dget k (mk_run kw os) = configured kw os k.
Proof.
  intros os kw k. revert kw.
  assert (I : forall os kw kw', existsb (fun o => match o with Configure n' => dmem k n' | _ => false end) os = true -> configured kw os k = configured kw' os k).
  { clear os. induction os as [|o os IH]; intros kw kw' h; [discriminate|]. cbn in *. destruct o as [l|n]; [apply IH; exact h|]. unfold dmem in h. destruct (dget k n) as [v|].
    - destruct (existsb _ os) eqn:e; [apply IH; reflexivity|reflexivity].
    - apply IH. exact h. }
  assert (N : forall os kw, existsb (fun o => match o with Configure n' => dmem k n' | _ => false end) os = false -> configured kw os k = dget k kw).
  { clear os I. induction os as [|o os IH]; intros kw h; [reflexivity|]. cbn in *. destruct o as [l|n]; [apply IH; exact h|]. unfold dmem in h. destruct (dget k n) as [v|]; [discriminate|].
    apply IH. exact h. }
  induction os as [|o os IH]; intros kw w h; [reflexivity|]. cbn [mk_run configured]. destruct o as [l|n]; cbn [mk_step fst].
  - apply IH; [exact w|]. intros n i. apply h. right. exact i.
  - rewrite IH; [|apply dwf_dupdate; exact w|intros m i; apply h; right; exact i]. unfold maker_configure.
    assert (wn : dwf n) by (apply h; left; reflexivity).
    pose proof (dget_dupdate k n kw wn) as q. destruct (existsb (fun o => match o with Configure n' => dmem k n' | _ => false end) os) eqn:e.
    + destruct (dget k n); apply I; exact e.
    + rewrite (N _ _ e), q. destruct (dget k n); [reflexivity|]. symmetry. apply N. exact e.
Qed.
Theorem maker_creation_neutral : forall os kw, mk_run kw os = mk_run kw (filter (fun o => match o with Create _ => false | _ => true end) os).
Proof. induction os as [|o os IH]; intros kw; [reflexivity|]. destruct o; cbn; apply IH. Qed.
(** a new factory holds each named option under its own name, [info] if there is one, and the other keywords as given *)
Theorem maker_named : forall bind autoflush autocommit expire_on_commit info kw,
  let f := maker_init bind autoflush autocommit expire_on_commit info kw in
  dget "bind" f = Some bind /\ dget "autoflush" f = Some autoflush /\ dget "autocommit" f = Some autocommit /\
  dget "expire_on_commit" f = Some expire_on_commit /\
  (info <> VNone -> dget "info" f = Some info) /\ (info = VNone -> dget "info" f = dget "info" kw) /\
  (forall k, ~ In k ["bind"; "autoflush"; "autocommit"; "expire_on_commit"; "info"] -> dget k f = dget k kw) /\
  (dwf kw -> dwf f).
Proof.
  intros b af ac eoc i kw f.
  assert (w : dwf kw -> dwf f) by (intros w; unfold f, maker_init; destruct i; repeat apply dwf_dset; exact w).
  assert (o : forall k, ~ In k ["bind"; "autoflush"; "autocommit"; "expire_on_commit"; "info"] -> dget k f = dget k kw).
  { intros k n. unfold f, maker_init. destruct i; repeat (rewrite dget_dset_other; [|intros ->; apply n; cbn; tauto]); reflexivity. }
  repeat split; [| | | | | |exact o|exact w]; unfold f, maker_init.
  1-4: destruct i; rewrite !dget_dset; reflexivity.
  - intros n. destruct i; try congruence; rewrite dget_dset_same; reflexivity.
  - intros ->. repeat rewrite dget_dset_other by discriminate. reflexivity.
Qed.
Print Assumptions maker_named.
Print Assumptions maker_option.
Print Assumptions maker_info.
Print Assumptions maker_succeeds.
Print Assumptions maker_history.
Print Assumptions maker_creation_neutral.

Definition mk1 := maker_init VNone (VBool true) (VBool false) (VBool true) (VDict [("a", VInt 1); ("b", VInt 2)]) [("x", VInt 0)].
Example mk1_wf : dwf mk1.
Proof. unfold dwf, mk1. cbn. repeat (apply NoDup_cons; [intros h; repeat (destruct h as [h|h]; [discriminate h|]); exact h|]). apply NoDup_nil. Qed.
Example mk1_call : maker_call mk1 [("autoflush", VBool false); ("info", VDict [("b", VInt 3)])] =
  Ok [("autoflush", VBool false); ("info", VDict [("a", VInt 1); ("b", VInt 3)]); ("x", VInt 0); ("bind", VNone);
      ("autocommit", VBool false); ("expire_on_commit", VBool true)].
Proof. reflexivity. Qed.
(** configure(info=None) makes every later creation that gives an 'info' fail: None has no copy() *)
Example mk1_none : maker_call (maker_configure mk1 [("info", VNone)]) [("info", VDict [])] = Err AttributeError.
Proof. reflexivity. Qed.

(** * C46 *)
Section C46.
  Context {S : Type} {ES : EqDec S}.
  Notation st := (@scoped S).

  (** the operation removes the session of scope [s] *)
  Definition removes (s : S) (x : S * sc_op) : Prop := x = (s, Remove).

  Lemma create_reg (a : st) s loc r b : create a s loc = (r, b) ->
    (exists e, r = Err e /\ b = a) \/
    (exists o, r = Ok (length (sc_made a)) /\ maker_call (sc_kw a) loc = Ok o /\
       sc_reg b = dset s (length (sc_made a)) (sc_reg a) /\ sc_made b = sc_made a ++ [o] /\ sc_kw b = sc_kw a).
  Proof.
    unfold create. destruct (maker_call (sc_kw a) loc) as [o|e]; intros h; inversion h; subst; [right; exists o|left; exists e]; auto.
  Qed.
  Lemma step_keeps (a : st) s o s' n : dget s (sc_reg a) = Some n -> ~ removes s (s', o) -> dget s (sc_reg (snd (sc_step a s' o))) = Some n.
  Proof.
    intros g nr. destruct o as [kw| |kw]; cbn [sc_step].
    - destruct kw as [|p kw].
      + destruct (dget s' (sc_reg a)) eqn:g'; [exact g|]. destruct (create a s' []) as [r b] eqn:c. apply create_reg in c.
        destruct c as [(e & -> & ->)|(o & -> & _ & er & _)]; [exact g|]. cbn. rewrite er, dget_dset_other by congruence. exact g.
      + unfold dmem. destruct (dget s' (sc_reg a)) eqn:g'; [exact g|]. destruct (create a s' (p :: kw)) as [r b] eqn:c. apply create_reg in c.
        destruct c as [(e & -> & ->)|(o & -> & _ & er & _)]; [exact g|]. cbn. rewrite er, dget_dset_other by congruence. exact g.
    - cbn. rewrite dget_ddel. destruct (eq_dec s s') as [->|]; [destruct nr; reflexivity|exact g].
    - destruct (dmem s' (sc_reg a)); exact g.
  Qed.
  Lemma run_keeps h : forall (a : st) s n, dget s (sc_reg a) = Some n -> (forall x, In x h -> ~ removes s x) -> dget s (sc_reg (sc_run a h)) = Some n.
  Proof.
    induction h as [|[s' o] h IH]; intros a s n g nr; [exact g|]. cbn [sc_run]. apply IH; [|intros x i; apply nr; right; exact i].
    apply step_keeps; [exact g|]. apply nr. left. reflexivity.
  Qed.
  Lemma call_present (a : st) s n kw : fst (sc_step a s (Call kw)) = Ok n -> dget s (sc_reg (snd (sc_step a s (Call kw)))) = Some n.
  Proof.
    cbn [sc_step]. destruct kw as [|p kw].
    - destruct (dget s (sc_reg a)) as [m|] eqn:g; [cbn; intros h; inversion h; subst; exact g|]. destruct (create a s []) as [r b] eqn:c. apply create_reg in c.
      destruct c as [(e & -> & ->)|(o & -> & _ & er & _)]; cbn; intros h; inversion h; subst. rewrite er. apply dget_dset_same.
    - destruct (dmem s (sc_reg a)); [discriminate|]. destruct (create a s (p :: kw)) as [r b] eqn:c. apply create_reg in c.
      destruct c as [(e & -> & ->)|(o & -> & _ & er & _)]; cbn; intros h; inversion h; subst. rewrite er. apply dget_dset_same.
  Qed.

  (** The same session for every call without options in one scope, until it is removed there, whatever the other scopes do. *)
  Theorem scoped_same : forall (a : st) s kw n h, fst (sc_step a s (Call kw)) = Ok n -> (forall x, In x h -> ~ removes s x) ->
    fst (sc_step (sc_run (snd (sc_step a s (Call kw))) h) s (Call [])) = Ok n.
  Proof.
    intros a s kw n h c nr. apply call_present in c. pose proof (run_keeps h _ s n c nr) as g.
    remember (sc_run (snd (sc_step a s (Call kw))) h) as b. cbn [sc_step]. rewrite g. reflexivity.
  Qed.
  (** Asking for options while a session is present is an error (NameError, since the intended exception's module is not
      imported) and changes nothing. *)
  Theorem scoped_options_error : forall (a : st) s n kw h, fst (sc_step a s (Call [])) = Ok n -> (forall x, In x h -> ~ removes s x) -> kw <> [] ->
    let b := sc_run (snd (sc_step a s (Call []))) h in sc_step b s (Call kw) = (Err NameError, b).
  Proof.
    intros a s n kw h c nr nk b. apply call_present in c. destruct kw as [|p kw]; [congruence|].
    pose proof (run_keeps h _ s n c nr) as g. fold b in g. clearbody b. cbn [sc_step]. unfold dmem. rewrite g. reflexivity.
  Qed.

  (** [SInv]: the sessions present were made, and two scopes never share one *)
  Definition SInv (a : st) : Prop :=
    dwf (sc_reg a) /\ (forall s n, dget s (sc_reg a) = Some n -> n < length (sc_made a)) /\
    (forall s s' n, dget s (sc_reg a) = Some n -> dget s' (sc_reg a) = Some n -> s = s').
  Lemma create_inv (a : st) s loc : SInv a -> dget s (sc_reg a) = None -> SInv (snd (create a s loc)).
  Proof.
    intros (w & i1 & i2) g. destruct (create a s loc) as [r b] eqn:c. apply create_reg in c. destruct c as [(e & _ & ->)|(o & _ & _ & er & em & _)]; [split; auto|].
    cbn [snd]. split; [rewrite er; apply dwf_dset; exact w|]. rewrite er, em, app_length. cbn [length]. split.
    - intros s1 n. rewrite dget_dset. destruct (eq_dec s1 s); [intros h; inversion h; lia|]. intros h. apply i1 in h. lia.
    - intros s1 s2 n. rewrite !dget_dset. destruct (eq_dec s1 s), (eq_dec s2 s); try congruence; intros h1 h2.
      + inversion h1; subst. apply i1 in h2. lia.
      + inversion h2; subst. apply i1 in h1. lia.
      + eapply i2; eassumption.
  Qed.
  Lemma step_inv (a : st) s o : SInv a -> SInv (snd (sc_step a s o)).
  Proof.
    intros I. destruct o as [kw| |kw]; cbn [sc_step].
    - destruct kw as [|p kw].
      + destruct (dget s (sc_reg a)) eqn:g; [exact I|apply create_inv; assumption].
      + unfold dmem. destruct (dget s (sc_reg a)) eqn:g; [exact I|apply create_inv; assumption].
    - destruct I as (w & i1 & i2). split; [apply dwf_ddel; exact w|]. cbn. split.
      + intros s1 n. rewrite dget_ddel. destruct (eq_dec s1 s); [discriminate|apply i1].
      + intros s1 s2 n. rewrite !dget_ddel. destruct (eq_dec s1 s), (eq_dec s2 s); try discriminate. apply i2.
    - destruct (dmem s (sc_reg a)); exact I.
  Qed.
  Lemma run_inv h : forall (a : st), SInv a -> SInv (sc_run a h).
  Proof. induction h as [|[s o] h IH]; intros a I; [exact I|]. cbn. apply IH. apply step_inv. exact I. Qed.
  Lemma init_inv kw : SInv (@sc_init S kw).
  Proof. split; [apply dwf_nil|]. split; intros; discriminate. Qed.

  (** Different scopes never see the same session: after any history, calls from two scopes give different sessions. *)
  Theorem scoped_distinct : forall kw0 h s s' k k' n n', s <> s' ->
    let a := sc_run (@sc_init S kw0) h in
    fst (sc_step a s (Call k)) = Ok n -> fst (sc_step (snd (sc_step a s (Call k))) s' (Call k')) = Ok n' -> n <> n'.
  Proof.
    intros kw0 h s s' k k' n n' ns a c1 c2 ->. 
    assert (I : SInv a) by (apply run_inv, init_inv).
    assert (I1 := step_inv a s (Call k) I). assert (I2 := step_inv _ s' (Call k') I1).
    apply call_present in c1. apply call_present in c2. destruct I2 as (_ & _ & i2). apply ns. eapply i2; [|exact c2].
    apply step_keeps; [exact c1|]. intros q. inversion q.
  Qed.
  Lemma made_grows h : forall (a : st), length (sc_made a) <= length (sc_made (sc_run a h)).
  Proof.
    induction h as [|[s o] h IH]; intros a; [apply Nat.le_refl|]. cbn [sc_run]. specialize (IH (snd (sc_step a s o))).
    assert (length (sc_made a) <= length (sc_made (snd (sc_step a s o)))); [|lia]. clear IH.
    assert (C : forall loc, length (sc_made a) <= length (sc_made (snd (create a s loc)))).
    { intros loc. destruct (create a s loc) as [r b] eqn:c. apply create_reg in c. destruct c as [(e & _ & ->)|(o' & _ & _ & _ & em & _)]; cbn [snd]; [lia|]. rewrite em, app_length. lia. }
    destruct o as [kw| |kw]; cbn [sc_step].
    - destruct kw as [|p kw]; [destruct (dget s (sc_reg a)); [cbn; lia|apply C]|destruct (dmem s (sc_reg a)); [cbn; lia|apply C]].
    - cbn. lia.
    - destruct (dmem s (sc_reg a)); cbn; lia.
  Qed.
  (** what the calls of a history answered *)
  Fixpoint answers (a : st) (h : list (S * sc_op)) : list (res nat) :=
    match h with
    | [] => []
    | (s, o) :: h' => (match o with Call _ => [fst (sc_step a s o)] | _ => [] end) ++ answers (snd (sc_step a s o)) h'
    end.
  Lemma answers_made h : forall (a : st) n, SInv a -> In (Ok n) (answers a h) -> n < length (sc_made (sc_run a h)).
  Proof.
    induction h as [|[s o] h IH]; intros a n I i; [destruct i|]. cbn [answers sc_run] in *. apply in_app_iff in i. destruct i as [i|i].
    - destruct o as [kw| |kw]; [|destruct i|destruct i]. destruct i as [i|[]]. symmetry in i. symmetry in i.
      pose proof (call_present a s n kw i) as g. destruct (step_inv a s (Call kw) I) as (_ & i1 & _). apply i1 in g.
      pose proof (made_grows h (snd (sc_step a s (Call kw)))). lia.
    - apply IH; [apply step_inv; exact I|exact i].
  Qed.
  (** After remove() the next call in the scope makes a session that no call ever gave before, with the options of the call and
      those configured by then. *)
  Theorem scoped_removed : forall kw0 h s kw n,
    let a := snd (sc_step (sc_run (@sc_init S kw0) h) s Remove) in
    fst (sc_step a s (Call kw)) = Ok n ->
    ~ In (Ok n) (answers (sc_init kw0) h) /\
    exists o, maker_call (sc_kw a) kw = Ok o /\ nth_error (sc_made (snd (sc_step a s (Call kw)))) n = Some o.
  Proof.
    intros kw0 h s kw n a c.
    assert (g : dget s (sc_reg a) = None). { unfold a. cbn. rewrite dget_ddel. destruct (eq_dec s s); congruence. }
    assert (e : sc_step a s (Call kw) = create a s kw). { cbn [sc_step]. unfold dmem. rewrite g. destruct kw; reflexivity. }
    rewrite e in *. destruct (create a s kw) as [r b] eqn:cr. apply create_reg in cr. cbn [fst snd] in *.
    destruct cr as [(e0 & -> & _)|(o & -> & hm & _ & em & _)]; [discriminate|]. inversion c; subst n. split.
    - intros i. apply answers_made in i; [|apply init_inv]. assert (q : sc_made a = sc_made (sc_run (sc_init kw0) h)) by reflexivity. rewrite <- q in i. exact (Nat.lt_irrefl _ i).
    - exists o. split; [exact hm|]. rewrite em. rewrite nth_error_app2 by apply Nat.le_refl. rewrite Nat.sub_diag. reflexivity.
  Qed.
  (** configure() applies to sessions made later; from a scope that has a session it raises AttributeError (the class has no
      logger) and changes nothing, so the options cannot be changed from there. *)
  Theorem scoped_configure : forall (a : st) s kw,
    (dget s (sc_reg a) = None -> sc_step a s (Reconfigure kw) =
       (Ok 0, {| sc_kw := maker_configure (sc_kw a) kw; sc_reg := sc_reg a; sc_made := sc_made a |})) /\
    (dget s (sc_reg a) <> None -> sc_step a s (Reconfigure kw) = (Err AttributeError, a)).
  Proof. intros a s kw. cbn [sc_step]. unfold dmem. destruct (dget s (sc_reg a)); split; intros h; try congruence; reflexivity. Qed.
End C46.
Print Assumptions scoped_same.
Print Assumptions scoped_options_error.
Print Assumptions scoped_distinct.
Print Assumptions scoped_removed.
Print Assumptions scoped_configure.

(** two threads (0 and 1) *)
Definition hist : list (nat * sc_op) := [(0, Call []); (1, Call [("autoflush", VBool false)]); (0, Call []); (0, Remove); (0, Call [])].
Example hist_answers : answers (sc_init mk1) hist = [Ok 0; Ok 1; Ok 0; Ok 2].
Proof. reflexivity. Qed.
(** configure() is intended to work with a warning when a session is present; it raises *)
Theorem scoped_configure_refuted : exists (a : @scoped nat) s kw, fst (sc_step a s (Reconfigure kw)) = Err AttributeError.
Proof. exists (sc_run (sc_init mk1) hist), 0, [("autoflush", VBool false)]. reflexivity. Qed.
Print Assumptions scoped_configure_refuted.
