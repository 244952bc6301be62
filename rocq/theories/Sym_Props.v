(** Properties of the importable types (C60). *)
From Verif Require Import Sym_Model Sym_Spec Coll_Proofs Ns_Proofs.
Local Open Scope char_scope. Local Open Scope list_scope.

Section Lemmas.
  Context {O : Type}.
  Variable w : world O.
  Lemma s_true_spec v : s_true w v = false <-> Falsy w v.
  Proof.
    unfold Falsy. destruct v as [|s|o]; cbn [s_true].
    - split; auto.
    - destruct (beq_spec _ s []) as [->|ne]; cbn [negb]; [split; auto|]. split; [discriminate|]. intros [h|[h|(o & h & _)]]; congruence.
    - split; [intros h; right; right; eauto|]. intros [h|[h|(o' & h & e)]]; congruence.
  Qed.
  Lemma follow_spec names : forall r v, follow w r names = Some v <-> Leads w r names v.
  Proof.
    induction names as [|a names IH]; intros r v; cbn [follow].
    - split; [intros h; injection h as ->; constructor|]. intros h. inversion h. reflexivity.
    - destruct a as [|c a].
      + rewrite IH. split; [apply leads_empty|]. intros h. inversion h; subst; [assumption|congruence].
      + destruct (w_attr w r (c :: a)) as [x|] eqn:e.
        * destruct (s_true w x) eqn:et.
          -- rewrite IH. split.
             ++ intros h. eapply leads_attr; [discriminate|exact e| |exact h]. intros f. apply s_true_spec in f. congruence.
             ++ intros h. inversion h; subst. assert (x = x0) by congruence. subst. assumption.
          -- split; [discriminate|]. intros h. inversion h; subst. assert (x = x0) by congruence. subst. apply s_true_spec in et. contradiction.
        * split; [discriminate|]. intros h. inversion h; subst. congruence.
  Qed.
  Lemma attempt_spec ms ns v : (match w_import w (ljoin ["."] ms) with Some m => follow w (SObj m) ns | None => None end) = Some v <-> Imports w ms ns v.
  Proof.
    unfold Imports. destruct (w_import w (ljoin ["."] ms)) as [m|].
    - rewrite follow_spec. split; [eauto|]. intros (m' & e & h). injection e as <-. exact h.
    - split; [discriminate|]. intros (m' & e & _). discriminate.
  Qed.
  (** the search below a bound *)
  Lemma tries_spec ws k v : k <= length ws -> (tries w ws k = Some v <->
    exists ms ns, ws = ms ++ ns /\ ms <> [] /\ length ms <= k /\ Imports w ms ns v /\
      forall ms' ns' v', ws = ms' ++ ns' -> length ms < length ms' <= k -> ~ Imports w ms' ns' v').
  Proof.
    induction k as [|k IH]; intros hk; cbn [tries].
    - split; [discriminate|]. intros ([|x ms] & ns & _ & ne & l & _); [congruence|cbn [length] in l; lia].
    - assert (lf : length (firstn (S k) ws) = S k) by (apply firstn_length_le; exact hk).
      assert (split_eq : forall ms ns, ws = ms ++ ns -> length ms = S k -> ms = firstn (S k) ws /\ ns = skipn (S k) ws).
      { intros ms ns -> l. rewrite <- l, firstn_app, skipn_app, firstn_all, skipn_all, Nat.sub_diag. cbn [firstn skipn app]. rewrite app_nil_r. split; reflexivity. }
      destruct (match w_import w (ljoin ["."] (firstn (S k) ws)) with Some m => follow w (SObj m) (skipn (S k) ws) | None => None end) as [x|] eqn:e.
      + apply attempt_spec in e. split.
        * intros h. injection h as <-. exists (firstn (S k) ws), (skipn (S k) ws). rewrite lf.
          split; [symmetry; apply firstn_skipn|]. split; [intros h; rewrite h in lf; discriminate|]. split; [lia|]. split; [exact e|]. intros ms' ns' v' _ l. lia.
        * intros (ms & ns & ew & ne & l & h & mx). destruct (Nat.eq_dec (length ms) (S k)) as [el|nl].
          -- destruct (split_eq ms ns ew el) as [-> ->]. f_equal. apply attempt_spec in e, h. congruence.
          -- exfalso. apply (mx (firstn (S k) ws) (skipn (S k) ws) x); [symmetry; apply firstn_skipn|lia|exact e].
      + rewrite IH by lia. split; intros (ms & ns & ew & ne & l & h & mx); exists ms, ns; (split; [exact ew|]); (split; [exact ne|]).
        * split; [lia|]. split; [exact h|]. intros ms' ns' v' ew' l' h'. destruct (Nat.eq_dec (length ms') (S k)) as [el|nl].
          -- destruct (split_eq ms' ns' ew' el) as [-> ->]. apply attempt_spec in h'. congruence.
          -- apply (mx ms' ns' v' ew'); [lia|exact h'].
        * assert (length ms <> S k).
          { intros el. destruct (split_eq ms ns ew el) as [-> ->]. apply attempt_spec in h. congruence. }
          split; [lia|]. split; [exact h|]. intros ms' ns' v' ew' l'. apply (mx ms' ns' v' ew'). lia.
  Qed.
  Lemma tries_stands ws v : tries w ws (length ws) = Some v <-> Stands w ws v.
  Proof.
    rewrite tries_spec by lia. unfold Stands. split.
    - intros (ms & ns & ew & ne & l & h & mx). exists ms, ns. split; [exact ew|]. split; [exact ne|]. split; [exact h|].
      intros ms' ns' v' ew' l'. apply (mx ms' ns' v' ew'). split; [exact l'|]. rewrite ew', app_length. lia.
    - intros (ms & ns & ew & ne & h & mx). exists ms, ns. split; [exact ew|]. split; [exact ne|]. split; [rewrite ew, app_length; lia|].
      split; [exact h|]. intros ms' ns' v' ew' l'. apply (mx ms' ns' v' ew'). lia.
  Qed.
  Lemma Words_split s ws : Words s ws -> split_char "." s = ws.
  Proof. intros (ne & -> & h). apply split_join; assumption. Qed.
  Lemma Words_exist s : Words s (split_char "." s).
  Proof.
    split; [apply split_char_nonempty|]. split; [|apply split_words_free].
    induction s as [|c s IH]; [reflexivity|]. cbn [split_char]. destruct (split_char "." s) as [|x xs] eqn:e; [destruct (split_char_nonempty _ _ e)|].
    destruct (beq_spec _ c ".") as [->|ne].
    - rewrite ljoin_cons by discriminate. cbn [app]. rewrite <- IH. reflexivity.
    - destruct xs as [|y ys]; [cbn [ljoin] in *; rewrite IH at 1; reflexivity|]. rewrite ljoin_cons in * by discriminate. rewrite IH at 1. reflexivity.
  Qed.
  Lemma Stands_fun ws v v' : Stands w ws v -> Stands w ws v' -> v = v'.
  Proof. intros h h'. apply tries_stands in h, h'. congruence. Qed.
  Lemma Leads_app v a x b y : Leads w v a x -> Leads w x b y -> Leads w v (a ++ b) y.
  Proof. induction 1; cbn [app]; [auto|intros; apply leads_empty; auto|intros; eapply leads_attr; eauto]. Qed.
  Lemma follow_result names : forall r v, follow w r names = Some v -> v = r \/ s_true w v = true.
  Proof.
    induction names as [|a names IH]; intros r v; cbn [follow]; [intros h; injection h as ->; left; reflexivity|].
    destruct a as [|c a]; [apply IH|]. destruct (w_attr w r (c :: a)) as [x|]; [|discriminate]. destruct (s_true w x) eqn:e; [|discriminate].
    intros h. destruct (IH x v h) as [->|h']; [right; exact e|right; exact h'].
  Qed.
End Lemmas.

(** a dotted name that is not a builtin stands for what the longest importable prefix leads to by attributes that are not false;
    it is returned when the type accepts it and ConversionError is raised otherwise *)
Theorem symbol_found : forall {O} (w : world O) test s ws v, dget s (w_builtins w) = None -> Words s ws -> Stands w ws v ->
  sym_convert w test (SStr s) = if test v then Ok v else Err ConversionError.
Proof.
  intros O w test s ws v nb hw h. unfold sym_convert. rewrite nb. cbn [rbind]. rewrite (Words_split s ws hw).
  assert (e := h). apply tries_stands in e. rewrite e.
  destruct v as [|x|o]; [|reflexivity|reflexivity]. exfalso. destruct h as (ms & ns & _ & _ & (m & _ & hl) & _).
  apply follow_spec in hl. apply follow_result in hl. destruct hl; discriminate.
Qed.
Print Assumptions symbol_found.
(** a name that stands for nothing is returned unchanged, if the type accepts strings *)
Theorem symbol_not_found : forall {O} (w : world O) test s ws, dget s (w_builtins w) = None -> Words s ws -> (forall v, ~ Stands w ws v) ->
  sym_convert w test (SStr s) = if test (SStr s) then Ok (SStr s) else Err ConversionError.
Proof.
  intros O w test s ws nb hw h. unfold sym_convert. rewrite nb. cbn [rbind]. rewrite (Words_split s ws hw).
  destruct (tries w ws (length ws)) as [v|] eqn:e; [|reflexivity]. apply tries_stands in e. destruct (h v e).
Qed.
Print Assumptions symbol_not_found.
(** these two cases are exhaustive, and a name stands for one value only *)
Theorem symbol_decided : forall {O} (w : world O) s, exists ws, Words s ws /\ (forall ws', Words s ws' -> ws' = ws) /\
  ((exists v, Stands w ws v) \/ forall v, ~ Stands w ws v) /\ forall v v', Stands w ws v -> Stands w ws v' -> v = v'.
Proof.
  intros O w s. exists (split_char "." s). split; [apply Words_exist|]. split; [intros ws' h; symmetry; apply Words_split, h|]. split.
  - destruct (tries w (split_char "." s) (length (split_char "." s))) as [v|] eqn:e; [left; exists v; apply tries_stands; exact e|].
    right. intros v h. apply tries_stands in h. congruence.
  - apply Stands_fun.
Qed.
Print Assumptions symbol_decided.
(** a result is None or a value the type accepts; other objects are returned unchanged, and None too *)
Theorem symbol_accepted : forall {O} (w : world O) test,
  (forall x v, sym_convert w test x = Ok v -> v = SNone \/ test v = true) /\
  sym_convert w test SNone = Ok SNone /\
  (forall o, w_hashable w o = true -> sym_convert w test (SObj o) = if test (SObj o) then Ok (SObj o) else Err ConversionError) /\
  (forall x e, sym_convert w test x = Err e -> e = ConversionError \/ exists o, x = SObj o /\ w_hashable w o = false /\ e = TypeError).
Proof.
  intros O w test. split; [|split; [reflexivity|split]].
  - intros x v h. unfold sym_convert in h. match type of h with rbind ?q _ = _ => destruct q as [t|e] end; [|discriminate]. cbn [rbind] in h.
    match type of h with match ?q with _ => _ end = _ => destruct q as [|s|o] end; [injection h as <-; left; reflexivity|..].
    + destruct (test (SStr s)) eqn:e; [injection h as <-; right; exact e|discriminate].
    + destruct (test (SObj o)) eqn:e; [injection h as <-; right; exact e|discriminate].
  - intros o h. unfold sym_convert. rewrite h. reflexivity.
  - intros x e h. unfold sym_convert in h. destruct x as [|s|o].
    + discriminate.
    + cbn [rbind] in h. match type of h with match ?q with _ => _ end = _ => destruct q as [|s'|o'] end; [discriminate|..].
      * destruct (test (SStr s')); [discriminate|injection h as <-; left; reflexivity].
      * destruct (test (SObj o')); [discriminate|injection h as <-; left; reflexivity].
    + destruct (w_hashable w o) eqn:eh; cbn [rbind] in h; [destruct (test (SObj o)); [discriminate|injection h as <-; left; reflexivity]|].
      injection h as <-. right. exists o. auto.
Qed.
Print Assumptions symbol_accepted.
(** converting a result that is not a string again changes nothing *)
Theorem symbol_idempotent : forall {O} (w : world O) test x v, sym_convert w test x = Ok v -> (forall s, v <> SStr s) ->
  (forall o, v = SObj o -> w_hashable w o = true) -> sym_convert w test v = Ok v.
Proof.
  intros O w test x v h ns hh. destruct v as [|s|o]; [reflexivity|destruct (ns s eq_refl)|].
  destruct (symbol_accepted w test) as (h1 & _ & h3 & _). rewrite h3 by (apply hh; reflexivity).
  destruct (h1 x _ h) as [e|e]; [discriminate|]. rewrite e. reflexivity.
Qed.
Print Assumptions symbol_idempotent.

(** * writing a symbol and importing it again *)
Theorem module_round_trip : forall {O} (w : world O) test o, w_is_module w o = true -> w_truthy w o = true ->
  w_import w (w_name w o) = Some o -> dget (w_name w o) (w_builtins w) = None -> test (SObj o) = true ->
  sym_serialize w (SObj o) = Ok (SStr (w_name w o)) /\ sym_convert w test (SStr (w_name w o)) = Ok (SObj o).
Proof.
  intros O w test o hm ht hi nb hc. split; [unfold sym_serialize; rewrite ht, hm; reflexivity|].
  destruct (Words_exist (w_name w o)) as (ne & es & hw).
  rewrite (symbol_found w test _ (split_char "." (w_name w o)) (SObj o) nb (Words_exist _)); [rewrite hc; reflexivity|].
  exists (split_char "." (w_name w o)), []. split; [symmetry; apply app_nil_r|]. split; [exact ne|]. split.
  - exists o. rewrite <- es. split; [exact hi|constructor].
  - intros ms' ns' v' e l. apply (f_equal (@length _)) in e. rewrite app_length in e. lia.
Qed.
Print Assumptions module_round_trip.
(** a class, function or other object named [q] in the module [m] comes back when [m] leads to it, and no longer prefix of the
    name is importable and leads somewhere *)
Theorem object_round_trip : forall {O} (w : world O) test o m q mo qs, w_is_module w o = false -> w_truthy w o = true ->
  w_module w o = Some m -> m <> [] -> w_qualname w o = Some q -> Words q qs ->
  w_import w m = Some mo -> Leads w (SObj mo) qs (SObj o) ->
  dget (m ++ "." :: q) (w_builtins w) = None -> test (SObj o) = true ->
  (forall extra rest v, qs = extra ++ rest -> extra <> [] -> ~ Imports w (split_char "." m ++ extra) rest v) ->
  sym_serialize w (SObj o) = Ok (SStr (m ++ "." :: q)) /\ sym_convert w test (SStr (m ++ "." :: q)) = Ok (SObj o).
Proof.
  intros O w test o m q mo qs hm ht em nm eq hq hi hl nb hc hx. split.
  - unfold sym_serialize. rewrite ht, hm, eq, em. destruct m; [congruence|reflexivity].
  - destruct (Words_exist m) as (nem & esm & hwm). destruct hq as (neq & -> & hwq).
    assert (hw : Words (m ++ "." :: ljoin ["."] qs) (split_char "." m ++ qs)).
    { split; [destruct (split_char "." m); [congruence|discriminate]|]. split.
      - rewrite esm at 1. clear -nem neq. induction (split_char "." m) as [|x l IH]; [congruence|]. destruct l as [|y l].
        + cbn [app]. rewrite (ljoin_cons ["."] x qs neq). reflexivity.
        + cbn [app] in *. rewrite ljoin_cons by discriminate. rewrite (ljoin_cons ["."] x (y :: l ++ qs)) by discriminate. rewrite <- app_assoc, <- app_assoc. do 2 f_equal. apply IH. discriminate.
      - intros x i. apply in_app_iff in i. destruct i as [i|i]; [apply (hwm x i)|apply (hwq x i)]. }
    rewrite (symbol_found w test _ _ (SObj o) nb hw); [rewrite hc; reflexivity|].
    exists (split_char "." m), qs. split; [reflexivity|]. split; [exact nem|]. split.
    + exists mo. rewrite <- esm. split; assumption.
    + intros ms' ns' v' e l. assert (exists extra, ms' = split_char "." m ++ extra /\ qs = extra ++ ns') as (extra & -> & e2).
      { clear -e l. revert ms' e l. induction (split_char "." m) as [|x a IH]; intros ms' e l; [exists ms'; split; [reflexivity|exact e]|].
        destruct ms' as [|y ms']; [cbn [length] in l; lia|]. cbn [app length] in *. injection e as -> e. destruct (IH ms' e) as (ex & -> & e2); [lia|].
        exists ex. split; [reflexivity|exact e2]. }
      apply hx; [exact e2|]. intros ->. rewrite app_nil_r in l. lia.
Qed.
Print Assumptions object_round_trip.

(** * an interpreter: the package 'p' (1) has the class 'p.C' (2), its method 'C.f' (3), a function 'sub' (4) and a submodule of the
    same name (5), an empty list (6), a string constant, and 'abs' is a builtin (7) *)
Definition sample : world nat := {|
  w_builtins := [(chars "abs", SObj 7); (chars "__name__", SStr (chars "p"))];
  w_import := fun s => if beq s (chars "p") then Some 1 else if beq s (chars "p.sub") then Some 5 else if beq s (chars "abs") then Some 8 else None;
  w_attr := fun v a => if beq a (chars "C") then Some (SObj 2) else if beq a (chars "f") then Some (SObj 3)
                       else if beq a (chars "sub") then Some (SObj 4) else if beq a (chars "empty") then Some (SObj 6)
                       else if beq a (chars "const") then Some (SStr (chars "p.C")) else None;
  w_truthy := fun o => negb (Nat.eqb o 6); w_hashable := fun o => negb (Nat.eqb o 6); w_is_module := fun o => Nat.eqb o 1 || Nat.eqb o 5;
  w_name := fun o => if Nat.eqb o 1 then chars "p" else chars "p.sub";
  w_module := fun o => Some (chars "p"); w_qualname := fun o => Some (if Nat.eqb o 2 then chars "C" else if Nat.eqb o 3 then chars "C.f" else chars "sub") |}.
Definition anything : sval nat -> bool := fun _ => true.
Example symbol_case :
  sym_convert sample anything (SStr (chars "p.C.f")) = Ok (SObj 3) /\ sym_serialize sample (SObj 3) = Ok (SStr (chars "p.C.f")) /\
  sym_convert sample anything (SStr (chars "p")) = Ok (SObj 1) /\ sym_convert sample anything (SStr (chars "p.sub")) = Ok (SObj 5) /\
  sym_convert sample anything (SStr (chars "q.C")) = Ok (SStr (chars "q.C")).
Proof. repeat split. Qed.
Example object_round_trip_case : forall extra rest v, [chars "C"; chars "f"] = extra ++ rest -> extra <> [] -> ~ Imports sample (split_char "." (chars "p") ++ extra) rest v.
Proof.
  intros [|x [|y [|z extra]]] rest v e ne; [congruence|injection e as <- _|injection e as <- <- _|discriminate]; intros (m & h & _); discriminate.
Qed.

(** deviations *)
(** an attribute that is false, an empty collection for instance, cannot be imported *)
Theorem symbol_falsy_refuted : forall {O} (w : world O) m a x, w_attr w (SObj m) a = Some x -> Falsy w x -> a <> [] -> forall v, ~ Leads w (SObj m) [a] v.
Proof. intros O w m a x e f ne v h. inversion h; subst; [congruence|]. assert (x0 = x) by congruence. subst. contradiction. Qed.
Print Assumptions symbol_falsy_refuted.
Example symbol_falsy_case : w_attr sample (SObj 1) (chars "empty") = Some (SObj 6) /\
  sym_convert sample anything (SStr (chars "p.empty")) = Ok (SStr (chars "p.empty")).
Proof. split; reflexivity. Qed.
(** a submodule hides an object of the same name *)
Theorem symbol_submodule_refuted : forall {O} (w : world O) test o m q mo, w_is_module w o = false -> w_truthy w o = true ->
  w_module w o = Some m -> m <> [] -> w_qualname w o = Some q -> w_import w (m ++ "." :: q) = Some mo -> mo <> o ->
  dget (m ++ "." :: q) (w_builtins w) = None -> test (SObj mo) = true ->
  exists s, sym_serialize w (SObj o) = Ok (SStr s) /\ sym_convert w test (SStr s) = Ok (SObj mo).
Proof.
  intros O w test o m q mo hm ht em nm eq hi ne nb hc. exists (m ++ "." :: q). split.
  - unfold sym_serialize. rewrite ht, hm, eq, em. destruct m; [congruence|reflexivity].
  - destruct (Words_exist (m ++ "." :: q)) as (nw & es & _). rewrite (symbol_found w test _ _ (SObj mo) nb (Words_exist _)); [rewrite hc; reflexivity|].
    exists (split_char "." (m ++ "." :: q)), []. split; [symmetry; apply app_nil_r|]. split; [exact nw|]. split.
    + exists mo. rewrite <- es. split; [exact hi|constructor].
    + intros ms' ns' v' e l. apply (f_equal (@length _)) in e. rewrite app_length in e. lia.
Qed.
Print Assumptions symbol_submodule_refuted.
(** a builtin hides a module of the same name *)
Theorem symbol_builtin_refuted : forall {O} (w : world O) test s o, dget s (w_builtins w) = Some (SObj o) ->
  sym_convert w test (SStr s) = if test (SObj o) then Ok (SObj o) else Err ConversionError.
Proof. intros O w test s o e. unfold sym_convert. rewrite e. reflexivity. Qed.
Print Assumptions symbol_builtin_refuted.
(** a string constant is returned as a string, and converting that again imports what it names *)
Theorem symbol_string_refuted : exists s v v', sym_convert sample anything (SStr s) = Ok v /\ sym_convert sample anything v = Ok v' /\ v' <> v.
Proof. exists (chars "p.const"), (SStr (chars "p.C")), (SObj 2). split; [reflexivity|]. split; [reflexivity|discriminate]. Qed.
Print Assumptions symbol_string_refuted.
(** a builtin that is a string is imported: the name of the builtins module, for instance *)
Theorem symbol_builtin_string_refuted : exists s o, dget s (w_builtins sample) = Some (SStr (chars "p")) /\ sym_convert sample anything (SStr s) = Ok (SObj o).
Proof. exists (chars "__name__"), 1. split; reflexivity. Qed.
Print Assumptions symbol_builtin_string_refuted.
