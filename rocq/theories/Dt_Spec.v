(** What dates, times and datetimes values stand for. *)
From Verif Require Export Dt_Model.
Local Open Scope char_scope. Local Open Scope list_scope.

Section Spec.
  Context {T : Type}.
  Variable a : arrow T.
  Definition Word (s : str) : Prop := s = chars "now" \/ s = chars "today".
  (** text read as a day by the usual formats, or else by the alternative ones; a time of day must not be lost *)
  Inductive TextDay (s : str) : day -> Prop :=
  | text_usual d : ar_date a s = Some (d, ar_midnight a) -> TextDay s d
  | text_alternative d : (forall d', ar_date a s <> Some (d', ar_midnight a)) -> ar_alt_date a s = Some (d, ar_midnight a) -> TextDay s d.
  Inductive DayOf : dval T -> day -> Prop :=
  | day_date d : DayOf (DDate d) d
  | day_datetime d : DayOf (DDatetime d (ar_midnight a)) d
  | day_arrow d : DayOf (DArrow d (ar_midnight a)) d
  | day_word s : Word s -> DayOf (DStr s) (fst (ar_now a))
  | day_text s d : ~ Word s -> TextDay s d -> DayOf (DStr s) d.
  Inductive TimeOf : dval T -> T -> Prop :=
  | time_time t : TimeOf (DTime t) t
  | time_datetime t : TimeOf (DDatetime (1, 1, 1)%Z t) t
  | time_arrow t : TimeOf (DArrow (1, 1, 1)%Z t) t
  | time_word s : Word s -> TimeOf (DStr s) (snd (ar_now a))
  | time_text s t : ~ Word s -> ar_time a s = Some ((1, 1, 1)%Z, t) -> TimeOf (DStr s) t.
  Inductive StampOf : dval T -> day -> T -> Prop :=
  | stamp_datetime d t : StampOf (DDatetime d t) d t
  | stamp_arrow d t : StampOf (DArrow d t) d t
  | stamp_now : StampOf (DStr (chars "now")) (fst (ar_now a)) (snd (ar_now a))
  | stamp_today : StampOf (DStr (chars "today")) (fst (ar_now a)) (ar_midnight a)
  | stamp_text s d t d' t' : ~ Word s -> ar_any_date a s = Some (d, t') -> ar_time a s = Some (d', t) -> StampOf (DStr s) d t.
  (** neither text nor a value of the module datetime with a day *)
  Definition Stampless (v : dval T) : Prop := (exists d, v = DDate d) \/ (exists t, v = DTime t) \/ exists o, v = DOther o.
End Spec.
