(** Properties of dates and times (C61). *)
From Verif Require Import Dt_Model Dt_Spec.
Local Open Scope char_scope. Local Open Scope list_scope.

Lemma word_date s : mem s (today_strings ++ now_strings) = true <-> Word s.
Proof. rewrite mem_In. unfold Word, today_strings, now_strings. cbn [app In]. intuition congruence. Qed.
Lemma word_time s : mem s (now_strings ++ today_strings) = true <-> Word s.
Proof. rewrite mem_In. unfold Word, today_strings, now_strings. cbn [app In]. intuition congruence. Qed.
Lemma midnight_spec {T} (a : arrow T) r d : at_midnight a r = Some d <-> r = Some (d, ar_midnight a).
Proof.
  unfold at_midnight. destruct r as [[d' t]|]; [|split; discriminate]. destruct (ar_eq a t (ar_midnight a)) as [->|ne]; split; intros h; try discriminate; try congruence.
Qed.
Lemma not_word b s : (mem s b = true <-> Word s) -> mem s b = false -> ~ Word s.
Proof. intros h e w. apply h in w. congruence. Qed.

(** conversion to a date gives None for None, the day the value stands for, and raises for every other value *)
Theorem date_convert_iff : forall {T} (a : arrow T) v, 
  (forall d, date_convert a v = Ok (DDate d) <-> DayOf a v d) /\
  (forall r, date_convert a v = Ok r -> (v = DNone /\ r = DNone) \/ exists d, r = DDate d) /\
  date_convert a DNone = Ok DNone.
Proof.
  intros T a v. split; [|split; [|reflexivity]].
  - intros d. split.
    + destruct v as [|d0|t|d0 t|d0 t|s|o]; cbn [date_convert]; try discriminate.
      * intros h. injection h as ->. constructor.
      * destruct (ar_eq a t (ar_midnight a)) as [->|]; [|discriminate]. intros h. injection h as ->. constructor.
      * destruct (ar_eq a t (ar_midnight a)) as [->|]; [|discriminate]. intros h. injection h as ->. constructor.
      * destruct (mem s (today_strings ++ now_strings)) eqn:ew.
        { intros h. injection h as <-. constructor. apply word_date. exact ew. }
        assert (nw := not_word _ s (word_date s) ew).
        destruct (at_midnight a (ar_date a s)) as [d1|] eqn:e1.
        { intros h. injection h as ->. apply midnight_spec in e1. constructor; [exact nw|]. constructor. exact e1. }
        destruct (at_midnight a (ar_alt_date a s)) as [d2|] eqn:e2; [|discriminate]. intros h. injection h as ->. apply midnight_spec in e2.
        apply day_text; [exact nw|]. apply text_alternative; [|exact e2]. intros d' h. apply midnight_spec in h. congruence.
    + intros h. destruct h as [d|d|d|s h|s d nw h]; cbn [date_convert]; try reflexivity.
      * destruct (ar_eq a _ _); [reflexivity|congruence].
      * destruct (ar_eq a _ _); [reflexivity|congruence].
      * apply word_date in h. rewrite h. reflexivity.
      * destruct (mem s (today_strings ++ now_strings)) eqn:ew; [apply word_date in ew; contradiction|].
        destruct h as [d h|d n h].
        { apply midnight_spec in h. rewrite h. reflexivity. }
        destruct (at_midnight a (ar_date a s)) as [d1|] eqn:e1; [apply midnight_spec in e1; destruct (n d1 e1)|].
        apply midnight_spec in h. rewrite h. reflexivity.
  - intros r h. destruct v as [|d0|t|d0 t|d0 t|s|o]; cbn [date_convert] in h; try discriminate.
    + injection h as <-. auto.
    + injection h as <-. eauto.
    + destruct (ar_eq a _ _); [injection h as <-; eauto|discriminate].
    + destruct (ar_eq a _ _); [injection h as <-; eauto|discriminate].
    + destruct (mem s _); [injection h as <-; eauto|]. destruct (at_midnight _ _); [injection h as <-; eauto|].
      destruct (at_midnight _ _); [injection h as <-; eauto|discriminate].
Qed.
Print Assumptions date_convert_iff.
Theorem time_convert_iff : forall {T} (a : arrow T) v, 
  (forall t, time_convert a v = Ok (DTime t) <-> TimeOf a v t) /\
  (forall r, time_convert a v = Ok r -> (v = DNone /\ r = DNone) \/ exists t, r = DTime t) /\
  time_convert a DNone = Ok DNone.
Proof.
  intros T a v. split; [|split; [|reflexivity]].
  - intros t. split.
    + destruct v as [|d0|t0|d0 t0|d0 t0|s|o]; cbn [time_convert]; try discriminate.
      * intros h. injection h as ->. constructor.
      * destruct (eq_dec d0 first_day) as [->|]; [|discriminate]. intros h. injection h as ->. constructor.
      * destruct (eq_dec d0 first_day) as [->|]; [|discriminate]. intros h. injection h as ->. constructor.
      * destruct (mem s (now_strings ++ today_strings)) eqn:ew.
        { intros h. injection h as <-. constructor. apply word_time. exact ew. }
        assert (nw := not_word _ s (word_time s) ew). destruct (ar_time a s) as [[d1 t1]|] eqn:e1; [|discriminate].
        destruct (eq_dec d1 first_day) as [->|]; [|discriminate]. intros h. injection h as ->. constructor; assumption.
    + intros h. destruct h as [t|t|t|s h|s t nw h]; cbn [time_convert]; try reflexivity.
      * apply word_time in h. rewrite h. reflexivity.
      * destruct (mem s (now_strings ++ today_strings)) eqn:ew; [apply word_time in ew; contradiction|]. rewrite h. reflexivity.
  - intros r h. destruct v as [|d0|t|d0 t|d0 t|s|o]; cbn [time_convert] in h; try discriminate.
    + injection h as <-. auto.
    + injection h as <-. eauto.
    + destruct (eq_dec _ _); [injection h as <-; eauto|discriminate].
    + destruct (eq_dec _ _); [injection h as <-; eauto|discriminate].
    + destruct (mem s _); [injection h as <-; eauto|]. destruct (ar_time a s) as [[d1 t1]|]; [|discriminate].
      destruct (eq_dec d1 first_day); [injection h as <-; eauto|discriminate].
Qed.
Print Assumptions time_convert_iff.
(** ... to a datetime: the day and the time the value stands for; dates, times and other objects silently give None *)
Theorem datetime_convert_iff : forall {T} (a : arrow T) v, 
  (forall d t, datetime_convert a v = Ok (DArrow d t) <-> StampOf a v d t) /\
  (datetime_convert a v = Ok DNone <-> v = DNone \/ Stampless v) /\
  (forall r, datetime_convert a v = Ok r -> r = DNone \/ exists d t, r = DArrow d t) /\
  (forall e, datetime_convert a v = Err e -> e = InvalidValue /\ exists s, v = DStr s).
Proof.
  intros T a v. unfold Stampless.
  assert (nn : mem (chars "now") now_strings = true) by reflexivity.
  assert (tt : mem (chars "today") now_strings = false /\ mem (chars "today") today_strings = true) by (split; reflexivity).
  split; [|split; [|split]].
  - intros d t. split.
    + destruct v as [|d0|t0|d0 t0|d0 t0|s|o]; cbn [datetime_convert]; try discriminate.
      * intros h. injection h as -> ->. constructor.
      * intros h. injection h as -> ->. constructor.
      * destruct (mem s now_strings) eqn:e1.
        { intros h. injection h as <- <-. apply mem_In in e1. destruct e1 as [<-|[]]. constructor. }
        destruct (mem s today_strings) eqn:e2.
        { intros h. injection h as <- <-. apply mem_In in e2. destruct e2 as [<-|[]]. constructor. }
        destruct (ar_any_date a s) as [[d1 t1]|] eqn:e3; [|discriminate]. destruct (ar_time a s) as [[d2 t2]|] eqn:e4; [|discriminate].
        intros h. injection h as -> ->. eapply stamp_text; [|exact e3|exact e4].
        intros [->| ->]; [rewrite nn in e1|destruct tt as [_ e]; rewrite e in e2]; discriminate.
    + intros h. destruct h as [d t|d t| | |s d t d' t' nw h1 h2]; cbn [datetime_convert]; try reflexivity.
      destruct (mem s now_strings) eqn:e1; [exfalso; apply nw; left; apply mem_In in e1; destruct e1 as [<-|[]]; reflexivity|].
      destruct (mem s today_strings) eqn:e2; [exfalso; apply nw; right; apply mem_In in e2; destruct e2 as [<-|[]]; reflexivity|].
      rewrite h1, h2. reflexivity.
  - destruct v as [|d0|t0|d0 t0|d0 t0|s|o]; cbn [datetime_convert]; (split; [|intros h; try reflexivity]); try discriminate; auto.
    + intros _. right. left. eauto.
    + intros _. right. right. left. eauto.
    + destruct h as [h|[(d & h)|[(t & h)|(o & h)]]]; discriminate.
    + destruct h as [h|[(d & h)|[(t & h)|(o & h)]]]; discriminate.
    + destruct (mem s now_strings); [discriminate|]. destruct (mem s today_strings); [discriminate|].
      destruct (ar_any_date a s) as [[]|]; [|discriminate]. destruct (ar_time a s) as [[]|]; discriminate.
    + destruct h as [h|[(d & h)|[(t & h)|(o & h)]]]; discriminate.
    + intros _. right. right. right. eauto.
  - intros r h. destruct v as [|d0|t0|d0 t0|d0 t0|s|o]; cbn [datetime_convert] in h; try (injection h as <-; eauto; fail).
    destruct (mem s now_strings); [injection h as <-; eauto|]. destruct (mem s today_strings); [injection h as <-; eauto|].
    destruct (ar_any_date a s) as [[]|]; [|discriminate]. destruct (ar_time a s) as [[]|]; [injection h as <-; eauto|discriminate].
  - intros e h. destruct v as [|d0|t0|d0 t0|d0 t0|s|o]; cbn [datetime_convert] in h; try discriminate.
    destruct (mem s now_strings); [discriminate|]. destruct (mem s today_strings); [discriminate|].
    destruct (ar_any_date a s) as [[]|]; [|injection h as <-; eauto]. destruct (ar_time a s) as [[]|]; [discriminate|injection h as <-; eauto].
Qed.
Print Assumptions datetime_convert_iff.
(** converting twice changes nothing *)
Theorem dates_idempotent : forall {T} (a : arrow T) v r,
  (date_convert a v = Ok r -> date_convert a r = Ok r) /\ (time_convert a v = Ok r -> time_convert a r = Ok r) /\
  (datetime_convert a v = Ok r -> datetime_convert a r = Ok r).
Proof.
  intros T a v r. split; [|split]; intros h.
  - apply (date_convert_iff a v) in h. destruct h as [[_ ->]|(d & ->)]; reflexivity.
  - apply (time_convert_iff a v) in h. destruct h as [[_ ->]|(d & ->)]; reflexivity.
  - apply (datetime_convert_iff a v) in h. destruct h as [->|(d & t & ->)]; reflexivity.
Qed.
Print Assumptions dates_idempotent.
(** a date, time or datetime written without a format is read back, when the formats read what isoformat writes *)
Theorem dates_round_trip : forall {T} (a : arrow T),
  (forall d, ~ Word (ar_iso_date a d) -> ar_date a (ar_iso_date a d) = Some (d, ar_midnight a) ->
     exists s, dt_serialize a None (DDate d) = Ok (Some s) /\ date_convert a (DStr s) = Ok (DDate d)) /\
  (forall t, ~ Word (ar_iso_time a t) -> ar_time a (ar_iso_time a t) = Some ((1, 1, 1)%Z, t) ->
     exists s, dt_serialize a None (DTime t) = Ok (Some s) /\ time_convert a (DStr s) = Ok (DTime t)) /\
  (forall d t d' t', ~ Word (ar_iso a d t) -> ar_any_date a (ar_iso a d t) = Some (d, t') -> ar_time a (ar_iso a d t) = Some (d', t) ->
     exists s, dt_serialize a None (DArrow d t) = Ok (Some s) /\ datetime_convert a (DStr s) = Ok (DArrow d t)).
Proof.
  intros T a. split; [|split].
  - intros d nw h. eexists. split; [reflexivity|]. apply date_convert_iff. apply day_text; [exact nw|]. apply text_usual. exact h.
  - intros t nw h. eexists. split; [reflexivity|]. apply time_convert_iff. apply time_text; assumption.
  - intros d t d' t' nw h1 h2. eexists. split; [reflexivity|]. apply datetime_convert_iff. eapply stamp_text; eassumption.
Qed.
Print Assumptions dates_round_trip.

(** a small calendar: times are minutes, one text per value *)
Definition clock : arrow nat := {|
  ar_midnight := 0; ar_eq := Nat.eq_dec; ar_now := ((2026, 11, 16)%Z, 390);
  ar_date := fun s => if beq s (chars "2020-02-29") then Some ((2020, 2, 29)%Z, 0) else None;
  ar_alt_date := fun s => if beq s (chars "29/02/2020") then Some ((2020, 2, 29)%Z, 0) else None;
  ar_any_date := fun s => if beq s (chars "2020-02-29") then Some ((2020, 2, 29)%Z, 0) else if beq s (chars "2020-02-29T10:00") then Some ((2020, 2, 29)%Z, 0) else None;
  ar_time := fun s => if beq s (chars "10:00") then Some ((1, 1, 1)%Z, 600) else if beq s (chars "2020-02-29T10:00") then Some ((1, 1, 1)%Z, 600) else None;
  ar_iso_date := fun _ => chars "2020-02-29"; ar_iso_time := fun _ => chars "10:00"; ar_iso := fun _ _ => chars "2020-02-29T10:00";
  ar_strftime := fun f _ => f; ar_format := fun f _ => f |}.
Example dates_case :
  date_convert clock (DStr (chars "29/02/2020")) = Ok (DDate (2020, 2, 29)%Z) /\ date_convert clock (DStr (chars "today")) = Ok (DDate (2026, 11, 16)%Z) /\
  time_convert clock (DStr (chars "10:00")) = Ok (DTime 600) /\
  datetime_convert clock (DStr (chars "2020-02-29T10:00")) = Ok (DArrow (2020, 2, 29)%Z 600) /\ datetime_convert clock (DStr (chars "x")) = Err InvalidValue.
Proof. repeat split. Qed.
Example dates_round_trip_case :
  ~ Word (ar_iso_date clock (2020, 2, 29)%Z) /\ ar_date clock (ar_iso_date clock (2020, 2, 29)%Z) = Some ((2020, 2, 29)%Z, ar_midnight clock) /\
  ar_time clock (ar_iso_time clock 600) = Some ((1, 1, 1)%Z, 600) /\
  ar_any_date clock (ar_iso clock (2020, 2, 29)%Z 600) = Some ((2020, 2, 29)%Z, 0) /\ ar_time clock (ar_iso clock (2020, 2, 29)%Z 600) = Some ((1, 1, 1)%Z, 600).
Proof. split; [intros [h|h]; discriminate|]. repeat split. Qed.

(** deviations *)
(** what is not a date raises IndexError, never the announced InvalidValue; a datetime with a time of day raises AssertionError *)
Theorem date_error_refuted : forall {T} (a : arrow T) v, v <> DNone -> (forall d, ~ DayOf a v d) ->
  date_convert a v = Err (match v with DDatetime _ _ | DArrow _ _ => AssertionError | _ => IndexError end).
Proof.
  intros T a v nn h. destruct (date_convert_iff a v) as (h1 & h2 & _). destruct (date_convert a v) as [r|e] eqn:er.
  - destruct (h2 r eq_refl) as [[-> _]|(d & ->)]; [congruence|]. destruct (h d). apply h1. reflexivity.
  - f_equal. destruct v as [|d0|t|d0 t|d0 t|s|o]; cbn [date_convert] in er; try congruence.
    + destruct (ar_eq a _ _); congruence.
    + destruct (ar_eq a _ _); congruence.
    + destruct (mem s _); [discriminate|]. destruct (at_midnight _ _); [discriminate|]. destruct (at_midnight _ _); congruence.
Qed.
Print Assumptions date_error_refuted.
Theorem time_error_refuted : forall {T} (a : arrow T) v, v <> DNone -> (forall t, ~ TimeOf a v t) ->
  time_convert a v = Err (match v with DDatetime _ _ | DArrow _ _ => AssertionError | _ => IndexError end).
Proof.
  intros T a v nn h. destruct (time_convert_iff a v) as (h1 & h2 & _). destruct (time_convert a v) as [r|e] eqn:er.
  - destruct (h2 r eq_refl) as [[-> _]|(d & ->)]; [congruence|]. destruct (h d). apply h1. reflexivity.
  - f_equal. destruct v as [|d0|t|d0 t|d0 t|s|o]; cbn [time_convert] in er; try congruence.
    + destruct (eq_dec _ _); congruence.
    + destruct (eq_dec _ _); congruence.
    + destruct (mem s _); [discriminate|]. destruct (ar_time a s) as [[]|]; [destruct (eq_dec _ _); congruence|congruence].
Qed.
Print Assumptions time_error_refuted.
Example date_error_case : date_convert clock (DStr (chars "x")) = Err IndexError /\ date_convert clock (DDatetime (2020, 2, 29)%Z 600) = Err AssertionError /\
  date_convert clock (DOther 3) = Err IndexError /\ datetime_convert clock (DDate (2020, 2, 29)%Z) = Ok DNone.
Proof. repeat split. Qed.
(** text with a date only, which the date type reads, is not a datetime *)
Theorem datetime_date_text_refuted : exists s d, date_convert clock (DStr s) = Ok (DDate d) /\ datetime_convert clock (DStr s) = Err InvalidValue.
Proof. exists (chars "2020-02-29"), (2020, 2, 29)%Z. split; reflexivity. Qed.
Print Assumptions datetime_date_text_refuted.
(** None and raw text cannot be written with a strftime format, and a date or time not with any other format *)
Theorem date_format_refuted : forall {T} (a : arrow T) f, f <> [] ->
  dt_serialize a (Some f) DNone = Err AttributeError /\
  (In "%" f -> forall s, dt_serialize a (Some f) (DStr s) = Err AttributeError) /\
  (~ In "%" f -> forall d t, dt_serialize a (Some f) (DDate d) = Err AttributeError /\ dt_serialize a (Some f) (DTime t) = Err AttributeError).
Proof.
  intros T a f ne. unfold dt_serialize. destruct f as [|c f]; [congruence|]. split; [destruct (mem "%" (c :: f)); reflexivity|]. split.
  - intros i s. rewrite (proj2 (mem_In _ _ _) i). reflexivity.
  - intros i d t. rewrite (proj2 (mem_not_In _ _ _) i). split; reflexivity.
Qed.
Print Assumptions date_format_refuted.
(** otherwise the format given is the one written with: text that the formats read back is read back as the same date *)
Theorem dates_formatted : forall {T} (a : arrow T) f, f <> [] ->
  (In "%" f -> forall v, (exists d, v = DDate d) \/ (exists t, v = DTime t) \/ (exists d t, v = DDatetime d t \/ v = DArrow d t) ->
     dt_serialize a (Some f) v = Ok (Some (ar_strftime a f v))) /\
  (~ In "%" f -> forall d t, dt_serialize a (Some f) (DArrow d t) = Ok (Some (ar_format a f (DArrow d t)))) /\
  (In "%" f -> forall d, ~ Word (ar_strftime a f (DDate d)) -> ar_date a (ar_strftime a f (DDate d)) = Some (d, ar_midnight a) ->
     exists s, dt_serialize a (Some f) (DDate d) = Ok (Some s) /\ date_convert a (DStr s) = Ok (DDate d)) /\
  (In "%" f -> forall t, ~ Word (ar_strftime a f (DTime t)) -> ar_time a (ar_strftime a f (DTime t)) = Some ((1, 1, 1)%Z, t) ->
     exists s, dt_serialize a (Some f) (DTime t) = Ok (Some s) /\ time_convert a (DStr s) = Ok (DTime t)).
Proof.
  intros T a f ne. assert (P : In "%" f -> forall v, (exists d, v = DDate d) \/ (exists t, v = DTime t) \/ (exists d t, v = DDatetime d t \/ v = DArrow d t) ->
     dt_serialize a (Some f) v = Ok (Some (ar_strftime a f v))).
  { intros i v h. unfold dt_serialize. destruct f as [|c f]; [congruence|]. rewrite (proj2 (mem_In _ _ _) i).
    destruct h as [(d & ->)|[(t & ->)|(d & t & [-> | ->])]]; reflexivity. }
  split; [exact P|]. split; [|split].
  - intros i d t. unfold dt_serialize. destruct f as [|c f]; [congruence|]. rewrite (proj2 (mem_not_In _ _ _) i). reflexivity.
  - intros i d nw h. eexists. split; [apply P; [exact i|eauto]|]. apply date_convert_iff. apply day_text; [exact nw|]. apply text_usual. exact h.
  - intros i t nw h. eexists. split; [apply P; [exact i|eauto]|]. apply time_convert_iff. apply time_text; assumption.
Qed.
Print Assumptions dates_formatted.
(** a clock that writes "2020-02-29" with "%F" *)
Definition clock_f : arrow nat := {|
  ar_midnight := 0; ar_eq := Nat.eq_dec; ar_now := ar_now clock; ar_date := ar_date clock; ar_alt_date := ar_alt_date clock; ar_any_date := ar_any_date clock;
  ar_time := ar_time clock; ar_iso_date := ar_iso_date clock; ar_iso_time := ar_iso_time clock; ar_iso := ar_iso clock;
  ar_strftime := fun f _ => if beq f (chars "%F") then chars "2020-02-29" else f; ar_format := fun f _ => f |}.
Example dates_formatted_case : dt_serialize clock_f (Some (chars "%F")) (DDate (2020, 2, 29)%Z) = Ok (Some (chars "2020-02-29")) /\
  ar_date clock_f (chars "2020-02-29") = Some ((2020, 2, 29)%Z, ar_midnight clock_f) /\ ~ Word (chars "2020-02-29").
Proof. repeat split. intros [h|h]; discriminate. Qed.
