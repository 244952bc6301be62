(** What a logged function does *)
From Verif Require Import Log_Model Log_Spec.
Local Open Scope string_scope.
Local Open Scope list_scope.

Section Props.
  Context {V S : Type}.
  Variable show : V -> S -> out string * S.
  Variable show_exn : exn -> S -> out string * S.
  Variable as_tuple : V -> option (list V).
  Variable has_logger : V -> S -> bool.
  Variable exn_name : exn -> string.
  Notation call_msg := (call_msg show as_tuple).
  Notation logged := (log_exceptions show show_exn as_tuple has_logger exn_name).
  Notation logged_init := (log_init show as_tuple has_logger exn_name).
  Notation Printed := (Printed show show_exn).
  Notation Failed := (Failed show show_exn).

  (** a step that only prints *)
  Definition prints {A} (m : @run S A) : Prop := forall s, Printed s (snd (m s)) /\ match fst (m s) with Ret _ => True | r => Failed r end.
  Lemma printed_trans : forall a b c, Printed a b -> Printed b c -> Printed a c.
  Proof. intros a b c p q. induction q; [exact p|constructor; auto|constructor; auto]. Qed.
  Lemma failed_map : forall {A B} (r : out A), Failed r -> forall r' : out B, match r, r' with Exc e, Exc e' => e = e' | Quit n, Quit n' => n = n' | _, _ => False end -> Failed r'.
  Proof. intros A B r f r' q. destruct f, r'; try contradiction; subst; econstructor; eassumption. Qed.
  Lemma prints_ret : forall {A} (a : A), prints (ret a).
  Proof. intros A a s. split; [constructor|exact I]. Qed.
  Lemma prints_bind : forall {A B} (m : run A) (k : A -> run B), prints m -> (forall a, prints (k a)) -> prints (bind m k).
  Proof.
    intros A B m k pm pk s. unfold bind. destruct (pm s) as [a b]. destruct (m s) as [[x|e|n] s']; cbn in *.
    - destruct (pk x s') as [c d]. split; [eapply printed_trans; eassumption|exact d].
    - split; [exact a|]. eapply failed_map; [exact b|reflexivity].
    - split; [exact a|]. eapply failed_map; [exact b|reflexivity].
  Qed.
  Lemma prints_show : forall v, prints (show v).
  Proof. intros v s. split; [apply printed_value; constructor|]. destruct (fst (show v s)) eqn:e; [exact I| |]; econstructor; exact e. Qed.
  Lemma prints_exn : forall e, prints (show_exn e).
  Proof. intros x s. split; [apply printed_exn; constructor|]. destruct (fst (show_exn x s)) eqn:e; [exact I|eapply failed_exn; exact e|eapply failed_exn_quit; exact e]. Qed.
  Lemma prints_arg : forall a, prints (show_arg show as_tuple a).
  Proof.
    intros a. unfold show_arg. destruct (as_tuple a) as [[|x [|y l]]|]; try apply prints_show.
    - intros s. split; [constructor|apply failed_tuple].
    - intros s. split; [constructor|apply failed_tuple].
  Qed.
  Lemma prints_msg : forall who args kw, prints who -> prints (call_msg who args kw).
  Proof.
    intros who args kw pw. unfold Log_Model.call_msg. apply prints_bind; [exact pw|]. intros w. apply prints_bind.
    - induction args as [|a args IH]; cbn [show_args]; [apply prints_ret|]. apply prints_bind; [apply prints_arg|]. intros t. apply prints_bind; [exact IH|]. intros ts. apply prints_ret.
    - intros x. apply prints_bind; [|intros y; apply prints_ret].
      induction kw as [|[k v] kw IH]; cbn [show_kwargs]; [apply prints_ret|]. apply prints_bind; [apply prints_show|]. intros t. apply prints_bind; [exact IH|]. intros ts. apply prints_ret.
  Qed.

  (** What a logged call may do: print, run the function once with the arguments of the call, print again if it raised; its result is
      that of the function, or the failure of a printing *)
  Theorem logged_call : forall name method inst args kw s j r s' j', (inst <> None \/ args <> []) ->
    logged name method inst args kw s j = (r, s', j') ->
    (Printed s s' /\ Failed r) \/
    (exists s1 s2 r2, Printed s s1 /\ method args kw s1 = (r2, s2) /\ Printed s2 s' /\ (r = r2 \/ (exists e, r2 = Exc e) /\ Failed r) /\
       ((forall e, r2 <> Exc e) -> r = r2 /\ s' = s2)).
  Proof.
    intros name method inst args kw s j r s' j' ne. unfold log_exceptions.
    destruct (match inst with Some i => Some i | None => _ end) as [i|] eqn:ei.
    2: { destruct inst; [discriminate|]. destruct args; [|discriminate]. destruct ne as [n|n]; contradiction n; reflexivity. }
    set (who := bind (show i) _). assert (pw : prints who) by (apply prints_bind; [apply prints_show|intros t; apply prints_ret]).
    pose proof (prints_msg who args kw pw) as pm.
    assert (pe : forall e, prints (bind (call_msg who args kw) (fun m => bind (show_exn e) (fun t => ret (m ++ break ++ exn_name e ++ ": " ++ t)%string)))).
    { intros e. apply prints_bind; [exact pm|]. intros m. apply prints_bind; [apply prints_exn|]. intros t. apply prints_ret. }
    (* the end, once a first part raised or ran *)
    assert (tail : forall r1 s1 j1,
      (match r1 with
       | Exc e => if has_logger i s1 then
             match bind (call_msg who args kw) (fun m => bind (show_exn e) (fun t => ret (m ++ break ++ exn_name e ++ ": " ++ t)%string)) s1 with
             | (Ret m, s2) => (Exc e, s2, j1 ++ [(Error, "CALL " ++ m)%string])
             | (Exc e', s2) => (Exc e', s2, j1)
             | (Quit n, s2) => (Quit n, s2, j1)
             end else (Exc e, s1, j1)
       | _ => (r1, s1, j1) end) = (r, s', j') ->
      Printed s1 s' /\ (r = r1 \/ (exists e, r1 = Exc e) /\ Failed r) /\ ((forall e, r1 <> Exc e) -> r = r1 /\ s' = s1)).
    { intros r1 s1 j1 q. destruct r1 as [v|e|n].
      - injection q as <- <- <-. split; [constructor|]. split; [left; reflexivity|split; reflexivity].
      - destruct (has_logger i s1).
        + destruct (pe e s1) as [a b]. destruct (bind _ _ s1) as [[m|e'|n'] s2] eqn:ee; cbn [fst snd] in a, b; injection q as <- <- <-; (split; [exact a|]).
          * split; [left; reflexivity|]. intros h. contradiction (h e). reflexivity.
          * split; [right; split; [eauto|eapply failed_map; [exact b|reflexivity]]|]. intros h. contradiction (h e). reflexivity.
          * split; [right; split; [eauto|eapply failed_map; [exact b|reflexivity]]|]. intros h. contradiction (h e). reflexivity.
        + injection q as <- <- <-. split; [constructor|]. split; [left; reflexivity|]. intros h. contradiction (h e). reflexivity.
      - injection q as <- <- <-. split; [constructor|]. split; [left; reflexivity|split; reflexivity]. }
    destruct (has_logger i s).
    - destruct (pm s) as [a b]. destruct (call_msg who args kw s) as [[m|e|n] s1] eqn:em; cbn [fst snd] in a, b; intros q.
      + destruct (method args kw s1) as [r2 s2] eqn:er. apply tail in q. destruct q as (p & h & k). right. exists s1, s2, r2. auto.
      + destruct (tail (Exc e) _ _ q) as (p & h & _). left. split; [eapply printed_trans; eassumption|]. destruct h as [->|[_ h]]; [|exact h]. eapply failed_map; [exact b|reflexivity].
      + destruct (tail (Quit n) _ _ q) as (p & h & _). left. split; [eapply printed_trans; eassumption|]. destruct h as [->|[_ h]]; [|exact h]. eapply failed_map; [exact b|reflexivity].
    - destruct (method args kw s) as [r2 s2] eqn:er. intros q. apply tail in q. destruct q as (p & h & k). right. exists s, s2, r2. split; [constructor|]. auto.
  Qed.
  Theorem logged_init_call : forall cname init inst args kw s j r s' j', has_logger inst s = true ->
    (forall s1 r2 s2, Printed s s1 -> init args kw s1 = (r2, s2) -> has_logger inst s2 = true) ->
    logged_init cname init inst args kw s j = (r, s', j') ->
    (Printed s s' /\ Failed r) \/
    (exists s1 s2 r2, Printed s s1 /\ init args kw s1 = (r2, s2) /\ Printed s2 s' /\ (r = r2 \/ (exists e, r2 = Exc e) /\ Failed r) /\
       ((forall e, r2 <> Exc e) -> r = r2 /\ s' = s2)).
  Proof.
    intros cname init inst args kw s j r s' j' hl keep. unfold log_init. rewrite hl.
    pose proof (prints_msg (ret ("INIT <" ++ cname ++ ">.__init__")%string) args kw (prints_ret _)) as pm.
    destruct (pm s) as [a b]. destruct (call_msg _ args kw s) as [[m|e|n] s1] eqn:em; cbn [fst snd] in a, b; intros q.
    - right. destruct (init args kw s1) as [[v|e|n] s2] eqn:er.
      + injection q as <- <- <-. exists s1, s2, (Ret v). split; [exact a|]. split; [exact er|]. split; [constructor|]. split; [left; reflexivity|split; reflexivity].
      + rewrite (keep _ _ _ a er) in q. destruct (pm s2) as [c d]. exists s1, s2, (Exc e). split; [exact a|]. split; [exact er|].
        destruct (call_msg _ args kw s2) as [[m'|e'|n'] s3] eqn:em'; cbn [fst snd] in c, d; injection q as <- <- <-; (split; [exact c|]).
        * split; [left; reflexivity|]. intros h. contradiction (h e). reflexivity.
        * split; [right; split; [eauto|eapply failed_map; [exact d|reflexivity]]|]. intros h. contradiction (h e). reflexivity.
        * split; [right; split; [eauto|eapply failed_map; [exact d|reflexivity]]|]. intros h. contradiction (h e). reflexivity.
      + injection q as <- <- <-. exists s1, s2, (Quit n). split; [exact a|]. split; [exact er|]. split; [constructor|]. split; [left; reflexivity|split; reflexivity].
    - left. injection q as <- <- <-. split; [exact a|]. eapply failed_map; [exact b|reflexivity].
    - left. injection q as <- <- <-. split; [exact a|]. eapply failed_map; [exact b|reflexivity].
  Qed.

  (** a value without a logger: the function is called, and nothing else *)
  Theorem no_logger_no_trace : forall name method i args kw s j, (forall s', has_logger i s' = false) ->
    logged name method (Some i) args kw s j = (fst (method args kw s), snd (method args kw s), j).
  Proof. intros name method i args kw s j h. unfold log_exceptions. rewrite h. destruct (method args kw s) as [[v|e|n] s1]; rewrite ?h; reflexivity. Qed.

  (** printing that never fails and only changes what nobody looks at, as the texts that objects keep of themselves *)
  Section Quiet.
    Variable Alike : S -> S -> Prop.
    Hypothesis alike_refl : forall s, Alike s s.
    Hypothesis alike_trans : forall a b c, Alike a b -> Alike b c -> Alike a c.
    Hypothesis quiet : forall v s, exists t s', show v s = (Ret t, s') /\ Alike s s'.
    Hypothesis quiet_exn : forall e s, exists t s', show_exn e s = (Ret t, s') /\ Alike s s'.
    Definition hushed {A} (m : @run S A) : Prop := forall s, exists a s', m s = (Ret a, s') /\ Alike s s'.
    Lemma hushed_ret : forall {A} (a : A), hushed (ret a).
    Proof. intros A a s. exists a, s. split; [reflexivity|apply alike_refl]. Qed.
    Lemma hushed_bind : forall {A B} (m : run A) (k : A -> run B), hushed m -> (forall a, hushed (k a)) -> hushed (bind m k).
    Proof.
      intros A B m k hm hk s. destruct (hm s) as (a & s1 & e & q). destruct (hk a s1) as (b & s2 & e2 & q2). exists b, s2. unfold bind. rewrite e, e2.
      split; [reflexivity|eapply alike_trans; eassumption].
    Qed.
    Lemma hushed_msg : forall who args kw, hushed who -> (forall a l, In a args -> as_tuple a = Some l -> length l = 1) -> hushed (call_msg who args kw).
    Proof.
      intros who args kw hw ht. unfold Log_Model.call_msg. apply hushed_bind; [exact hw|]. intros w. apply hushed_bind.
      - induction args as [|a args IH]; cbn [show_args]; [apply hushed_ret|]. apply hushed_bind.
        + unfold show_arg. specialize (fun l => ht a l (or_introl eq_refl)). destruct (as_tuple a) as [[|x [|y l]]|]; [discriminate (ht _ eq_refl)|exact (quiet x)|discriminate (ht _ eq_refl)|exact (quiet a)].
        + intros t. apply hushed_bind; [apply IH; intros b l i; apply ht; right; exact i|]. intros ts. apply hushed_ret.
      - intros x. apply hushed_bind; [|intros y; apply hushed_ret].
        induction kw as [|[k v] kw IH]; cbn [show_kwargs]; [apply hushed_ret|]. apply hushed_bind; [exact (quiet v)|]. intros t. apply hushed_bind; [exact IH|]. intros ts. apply hushed_ret.
    Qed.
    Theorem logged_transparent : forall name (method : func) inst args kw s j,
      (inst <> None \/ args <> []) -> (forall a l, In a args -> as_tuple a = Some l -> length l = 1) ->
      (forall s1 s2, Alike s1 s2 -> fst (method args kw s1) = fst (method args kw s2) /\ Alike (snd (method args kw s1)) (snd (method args kw s2))) ->
      exists s' j', logged name method inst args kw s j = (fst (method args kw s), s', j') /\ Alike (snd (method args kw s)) s'.
    Proof.
      intros name method inst args kw s j ne ht hm. unfold log_exceptions.
      destruct (match inst with Some i => Some i | None => _ end) as [i|] eqn:ei.
      2: { destruct inst; [discriminate|]. destruct args; [|discriminate]. destruct ne as [n|n]; contradiction n; reflexivity. }
      set (who := bind (show i) _). assert (hw : hushed who) by (apply hushed_bind; [exact (quiet i)|intros t; apply hushed_ret]).
      pose proof (hushed_msg who args kw hw ht) as hg.
      assert (tail : forall (r1 : out V) s1 (j1 : journal), exists s' j',
        (match r1 with
         | Exc e => if has_logger i s1 then
             match bind (call_msg who args kw) (fun m => bind (show_exn e) (fun t => ret (m ++ break ++ exn_name e ++ ": " ++ t)%string)) s1 with
             | (Ret m, s2) => (Exc e, s2, j1 ++ [(Error, "CALL " ++ m)%string])
             | (Exc e', s2) => (Exc e', s2, j1)
             | (Quit n, s2) => (Quit n, s2, j1)
             end else (Exc e, s1, j1)
         | _ => (r1, s1, j1) end) = (r1, s', j') /\ Alike s1 s').
      { intros [v|e|n] s1 j1; [eexists _, _; split; [reflexivity|apply alike_refl]| |eexists _, _; split; [reflexivity|apply alike_refl]].
        destruct (has_logger i s1); [|eexists _, _; split; [reflexivity|apply alike_refl]].
        assert (h : hushed (bind (call_msg who args kw) (fun m => bind (show_exn e) (fun t => ret (m ++ break ++ exn_name e ++ ": " ++ t)%string)))).
        { apply hushed_bind; [exact hg|]. intros m. apply hushed_bind; [exact (quiet_exn e)|]. intros t. apply hushed_ret. }
        destruct (h s1) as (m & s2 & em & q). rewrite em. eexists _, _; split; [reflexivity|exact q]. }
      destruct (has_logger i s).
      - destruct (hg s) as (m & s1 & em & q). rewrite em. destruct (method args kw s1) as [r2 s2] eqn:er. destruct (hm _ _ q) as [h1 h2]. rewrite er in h1, h2. cbn [fst snd] in h1, h2.
        destruct (tail r2 s2 (j ++ [(Debug, "CALL " ++ m)%string])) as (s' & j' & e & q'). exists s', j'. rewrite h1. split; [exact e|eapply alike_trans; eassumption].
      - destruct (method args kw s) as [r2 s2] eqn:er. destruct (tail r2 s2 j) as (s' & j' & e & q'). exists s', j'. split; [exact e|exact q'].
    Qed.
    Theorem logged_init_transparent : forall cname (init : func) inst args kw s j, (forall s, has_logger inst s = true) ->
      (forall a l, In a args -> as_tuple a = Some l -> length l = 1) ->
      (forall s1 s2, Alike s1 s2 -> fst (init args kw s1) = fst (init args kw s2) /\ Alike (snd (init args kw s1)) (snd (init args kw s2))) ->
      exists s' j', logged_init cname init inst args kw s j = (fst (init args kw s), s', j') /\ Alike (snd (init args kw s)) s'.
    Proof.
      intros cname init inst args kw s j hl ht hm. unfold log_init. rewrite hl. pose proof (hushed_msg (ret ("INIT <" ++ cname ++ ">.__init__")%string) args kw (hushed_ret _) ht) as hg.
      destruct (hg s) as (m & s1 & em & q). rewrite em. destruct (init args kw s1) as [r2 s2] eqn:er. destruct (hm _ _ q) as [h1 h2]. rewrite er in h1, h2. cbn [fst snd] in h1, h2. rewrite h1.
      destruct r2 as [v|e|n]; [eexists _, _; split; [reflexivity|exact h2]| |eexists _, _; split; [reflexivity|exact h2]].
      rewrite hl. destruct (hg s2) as (m2 & s3 & em2 & q2). rewrite em2. eexists _, _; split; [reflexivity|eapply alike_trans; eassumption].
    Qed.
  End Quiet.

  (** printing that gives each value one text: what is written *)
  Section Pure.
    Variable text : V -> string.
    Variable exn_text : exn -> string.
    Hypothesis pure : forall v s, show v s = (Ret (text v), s).
    Hypothesis pure_exn : forall e s, show_exn e s = (Ret (exn_text e), s).
    Lemma pure_msg : forall who w args kw s, (forall s, who s = (Ret w, s)) -> (forall a, In a args -> as_tuple a = None) ->
      call_msg who args kw s = (Ret (call_text text w args kw), s).
    Proof.
      intros who w args kw s hw ht. unfold Log_Model.call_msg, bind at 1. rewrite hw.
      assert (A : forall s, show_args show as_tuple args s = (Ret (map text args), s)).
      { induction args as [|a args IH]; intros s0; cbn [show_args map]; [reflexivity|]. unfold bind at 1, show_arg. rewrite (ht a (or_introl eq_refl)), pure.
        unfold bind. rewrite IH by (intros; apply ht; right; assumption). reflexivity. }
      assert (B : forall s, show_kwargs show kw s = (Ret (map (fun p => (fst p ++ "=" ++ text (snd p))%string) kw), s)).
      { induction kw as [|[k v] kw IH]; intros s0; cbn [show_kwargs map fst snd]; [reflexivity|]. unfold bind at 1. rewrite pure. unfold bind. rewrite IH. reflexivity. }
      unfold bind. rewrite A, B. reflexivity.
    Qed.
    Theorem journal_of_call : forall name method i args kw s j, (forall s, has_logger i s = true) -> (forall a, In a args -> as_tuple a = None) ->
      let call := ("CALL " ++ call_text text (text i ++ "." ++ name) args kw)%string in
      logged name method (Some i) args kw s j =
        (fst (method args kw s), snd (method args kw s),
         j ++ (Debug, call) :: match fst (method args kw s) with Exc e => [(Error, (call ++ String "010" (String "009" "ERROR ") ++ exn_name e ++ ": " ++ exn_text e)%string)] | _ => [] end).
    Proof.
      intros name method i args kw s j hl ht call. unfold log_exceptions. rewrite hl.
      set (who := bind (show i) _). assert (hw : forall s, who s = (Ret (text i ++ "." ++ name)%string, s)) by (intros s0; unfold who, bind; rewrite pure; reflexivity).
      rewrite (pure_msg who _ args kw s hw ht). destruct (method args kw s) as [[v|e|n] s1]; cbn [fst snd]; [reflexivity| |reflexivity].
      rewrite hl. unfold bind at 1. rewrite (pure_msg who _ args kw s1 hw ht). unfold bind. rewrite pure_exn. cbn [ret]. rewrite <- app_assoc. reflexivity.
    Qed.
    Theorem journal_of_init : forall cname init i args kw s j, (forall s, has_logger i s = true) -> (forall a, In a args -> as_tuple a = None) ->
      let call := call_text text ("INIT <" ++ cname ++ ">.__init__") args kw in
      logged_init cname init i args kw s j =
        (fst (init args kw s), snd (init args kw s),
         j ++ (Info, call) :: match fst (init args kw s) with Exc e => [(Error, ("CALL " ++ call ++ String "010" (String "009" "ERROR ") ++ exn_name e)%string)] | _ => [] end).
    Proof.
      intros cname init i args kw s j hl ht call. unfold log_init. rewrite hl. rewrite (pure_msg (ret ("INIT <" ++ cname ++ ">.__init__")%string) ("INIT <" ++ cname ++ ">.__init__")%string args kw s (fun _ => eq_refl) ht).
      destruct (init args kw s) as [[v|e|n] s1]; cbn [fst snd]; [reflexivity| |reflexivity].
      rewrite hl, (pure_msg (ret ("INIT <" ++ cname ++ ">.__init__")%string) ("INIT <" ++ cname ++ ">.__init__")%string args kw s1 (fun _ => eq_refl) ht). rewrite <- app_assoc. reflexivity.
    Qed.
  End Pure.

  (** A tuple among the arguments is taken for the values of the message: the function does not run *)
  Theorem tuple_argument_refuted : forall name method init i before a l after kw s j (text : V -> string),
    (forall s, has_logger i s = true) -> (forall v s, show v s = (Ret (text v), s)) ->
    (forall b, In b before -> as_tuple b = None) -> as_tuple a = Some l -> length l <> 1 ->
    logged name method (Some i) (before ++ a :: after) kw s j = (Exc TypeError, s, j) /\
    logged_init name init i (before ++ a :: after) kw s j = (Exc TypeError, s, j).
  Proof.
    intros name method init i before a l after kw s j text hl pure hb ha hn.
    assert (A : forall s, show_args show as_tuple (before ++ a :: after) s = (Exc TypeError, s)).
    { induction before as [|b before IH]; intros s0; cbn [app show_args].
      - unfold bind, show_arg. rewrite ha. destruct l as [|x [|y l]]; [reflexivity|contradiction hn; reflexivity|reflexivity].
      - unfold bind at 1, show_arg. rewrite (hb b (or_introl eq_refl)), pure. unfold bind. rewrite IH by (intros; apply hb; right; assumption). reflexivity. }
    assert (B : forall who w s, (forall s, who s = (Ret w, s)) -> call_msg who (before ++ a :: after) kw s = (Exc TypeError, s)).
    { intros who w s0 hw. unfold Log_Model.call_msg, bind at 1. rewrite hw. unfold bind. rewrite A. reflexivity. }
    split.
    - unfold log_exceptions. rewrite hl. set (who := bind (show i) _). assert (hw : forall s, who s = (Ret (text i ++ "." ++ name)%string, s)) by (intros s0; unfold who, bind; rewrite pure; reflexivity).
      rewrite (B who _ s hw). rewrite hl. unfold bind at 1. rewrite (B who _ s hw). reflexivity.
    - unfold log_init. rewrite hl, (B (ret ("INIT <" ++ name ++ ">.__init__")%string) ("INIT <" ++ name ++ ">.__init__")%string s (fun _ => eq_refl)). reflexivity.
  Qed.
  (** a function called without an instance and without arguments does not run *)
  Theorem no_argument_refuted : forall name method kw s j, logged name method None [] kw s j = (Exc IndexError, s, j).
  Proof. reflexivity. Qed.
  (** an object that cannot be printed cannot be used *)
  Theorem unprintable_refuted : forall name method i args kw s j e, (forall s, has_logger i s = true) -> (forall s, show i s = (Exc e, s)) ->
    logged name method (Some i) args kw s j = (Exc e, s, j).
  Proof.
    intros name method i args kw s j e hl he. unfold log_exceptions. rewrite hl. unfold Log_Model.call_msg, bind. rewrite he, hl, he. reflexivity.
  Qed.
  (** the exception of the function is lost when the instance cannot be printed after it *)
  Theorem exception_lost_refuted : forall name method i kw s j s1 e e' t, (forall s, has_logger i s = true) -> show i s = (Ret t, s) -> kw = [] ->
    method [] kw s = (Exc e, s1) -> show i s1 = (Exc e', s1) ->
    fst (fst (logged name method (Some i) [] kw s j)) = Exc e'.
  Proof.
    intros name method i kw s j s1 e e' t hl h0 -> hm h1. unfold log_exceptions. rewrite hl. unfold Log_Model.call_msg, bind. rewrite h0. cbn [ret show_args show_kwargs].
    rewrite hm, hl, h1. reflexivity.
  Qed.
  (** an instance without a logger has no logged initialisation *)
  Theorem init_without_logger_refuted : forall cname init i args kw s j, has_logger i s = false -> logged_init cname init i args kw s j = (Exc AttributeError, s, j).
  Proof. intros. unfold log_init. rewrite H. reflexivity. Qed.
End Props.
Print Assumptions logged_call.
Print Assumptions logged_init_call.
Print Assumptions no_logger_no_trace.
Print Assumptions logged_transparent.
Print Assumptions logged_init_transparent.
Print Assumptions journal_of_call.
Print Assumptions journal_of_init.
Print Assumptions tuple_argument_refuted.
Print Assumptions no_argument_refuted.
Print Assumptions unprintable_refuted.
Print Assumptions exception_lost_refuted.
Print Assumptions init_without_logger_refuted.

(** a counter that the method increases; numbers are values, and a tuple is a list of numbers *)
Section Demo.
  Definition dV := (nat + list nat)%type.
  Definition demo_show (v : dV) (s : nat) : out string * nat := (Ret (match v with inl _ => "n" | inr _ => "t" end), s).
  Definition demo_show_exn (e : exn) (s : nat) : out string * nat := (Ret "boom", s).
  Definition demo_as_tuple (v : dV) : option (list dV) := match v with inl _ => None | inr l => Some (map inl l) end.
  Definition demo_name_of (e : exn) : string := "ValueError".
  Definition demo_add (args : list dV) (kw : dict string dV) (s : nat) : out dV * nat :=
    match args with inl 0 :: _ => (Exc ValueError, S s) | _ => (Ret (inl 7), S s) end.
  Definition demo_call := log_exceptions demo_show demo_show_exn demo_as_tuple (fun _ _ => true) demo_name_of "add" demo_add.
  Example ex_call : demo_call (Some (inl 1)) [inl 5] [("k", inl 6)] 3 [] = (Ret (inl 7), 4, [(Debug, "CALL n.add(n, k=n)")]).
  Proof. reflexivity. Qed.
  Example ex_raises : demo_call (Some (inl 1)) [inl 0] [] 3 [] = (Exc ValueError, 4, [(Debug, "CALL n.add(n)"); (Error, ("CALL n.add(n)" ++ break ++ "ValueError: boom")%string)]).
  Proof. reflexivity. Qed.
  Example ex_tuple : demo_call (Some (inl 1)) [inr [1; 2]] [] 3 [] = (Exc TypeError, 3, []).
  Proof. reflexivity. Qed.
  (* the hypotheses of logged_transparent hold with equality *)
  Example ex_transparent : exists s' j', demo_call (Some (inl 1)) [inl 5] [] 3 [] = (Ret (inl 7), s', j') /\ 4 = s'.
  Proof.
    apply (logged_transparent demo_show demo_show_exn demo_as_tuple (fun _ _ => true) demo_name_of eq (@eq_refl nat) (@eq_trans nat)
      (fun v s => ex_intro _ _ (ex_intro _ _ (conj eq_refl eq_refl))) (fun e s => ex_intro _ _ (ex_intro _ _ (conj eq_refl eq_refl))) "add" demo_add (Some (inl 1)) [inl 5] [] 3 []).
    - left. discriminate.
    - intros a l [<-|[]] e. discriminate e.
    - intros s1 s2 ->. split; reflexivity.
  Qed.
  (* an object that cannot be printed any more once the method has failed *)
  Definition demo_fragile (v : dV) (s : nat) : out string * nat := if Nat.eqb s 0 then (Ret "n", s) else (Exc KeyError, s).
  Example ex_lost : fst (fst (log_exceptions demo_fragile demo_show_exn demo_as_tuple (fun _ _ => true) demo_name_of "add" (fun _ _ s => (Exc ValueError, S s)) (Some (inl 1)) [] [] 0 [])) = Exc KeyError.
  Proof. reflexivity. Qed.
End Demo.
