(** Dates and times, ngoschema/types/datetime.py. [arrow] is a record of functions: parsing with the format lists of
    config/settings.py:125-148, the current time, printing. Expressions and templates (C58) are not modelled here. *)
From Verif Require Export Base Ns_Model.
Local Open Scope char_scope. Local Open Scope list_scope.

(** a date: year, month, day; a time of day with everything below the day *)
Definition day := (Z * Z * Z)%type.
Inductive dval (T : Type) :=
| DNone
| DDate (d : day)               (* datetime.date *)
| DTime (t : T)                 (* datetime.time *)
| DDatetime (d : day) (t : T)   (* datetime.datetime *)
| DArrow (d : day) (t : T)      (* arrow.Arrow *)
| DStr (s : str)
| DOther (o : nat).             (* numbers, lists, ... that are not false *)
Arguments DNone {T}. Arguments DDate {T} d. Arguments DTime {T} t. Arguments DDatetime {T} d t. Arguments DArrow {T} d t.
Arguments DStr {T} s. Arguments DOther {T} o.

Record arrow (T : Type) := {
  ar_midnight : T;                              (* datetime.time(0, 0) *)
  ar_eq : forall x y : T, {x = y} + {x <> y};
  ar_now : day * T;                             (* arrow.utcnow() *)
  ar_date : str -> option (day * T);            (* arrow.get(value, DATE_FORMATS) *)
  ar_alt_date : str -> option (day * T);        (* arrow.get(value, ALT_DATE_FORMATS) *)
  ar_any_date : str -> option (day * T);        (* arrow.get(value, DATE_FORMATS + ALT_DATE_FORMATS) *)
  ar_time : str -> option (day * T);            (* arrow.get(value, ALT_TIME_FORMATS) *)
  ar_iso_date : day -> str; ar_iso_time : T -> str; ar_iso : day -> T -> str;   (* isoformat *)
  ar_strftime : str -> dval T -> str; ar_format : str -> dval T -> str          (* strftime, Arrow.format *)
}.
Arguments ar_midnight {T}. Arguments ar_eq {T}. Arguments ar_now {T}. Arguments ar_date {T}. Arguments ar_alt_date {T}.
Arguments ar_any_date {T}. Arguments ar_time {T}. Arguments ar_iso_date {T}. Arguments ar_iso_time {T}. Arguments ar_iso {T}.
Arguments ar_strftime {T}. Arguments ar_format {T}.

(** settings.py:121-122 *)
Definition now_strings : list str := [chars "now"].
Definition today_strings : list str := [chars "today"].
Definition first_day : day := (1, 1, 1)%Z.

Section Dates.
  Context {T : Type}.
  Variable a : arrow T.

  (** [arrow.get(...); assert a.time() == midnight; a.date()] *)
  Definition at_midnight (r : option (day * T)) : option day :=
    match r with Some (d, t) => if ar_eq a t (ar_midnight a) then Some d else None | None => None end.
  (** 41-63. Date._convert. The message of line 63 has two fields and one value: formatting it raises IndexError *)
  Definition date_convert (v : dval T) : res (dval T) :=
    match v with
    | DNone => Ok DNone
    | DArrow d t | DDatetime d t => if ar_eq a t (ar_midnight a) then Ok (DDate d) else Err AssertionError   (* 45-47 *)
    | DDate d => Ok (DDate d)
    | DStr s =>
        if mem s (today_strings ++ now_strings) then Ok (DDate (fst (ar_now a)))                             (* 52-53 *)
        else match at_midnight (ar_date a s) with
             | Some d => Ok (DDate d)
             | None => match at_midnight (ar_alt_date a s) with Some d => Ok (DDate d) | None => Err IndexError end
             end
    | _ => Err IndexError
    end.
  (** 84-102. Time._convert *)
  Definition time_convert (v : dval T) : res (dval T) :=
    match v with
    | DNone => Ok DNone
    | DTime t => Ok (DTime t)
    | DArrow d t | DDatetime d t => if eq_dec d first_day then Ok (DTime t) else Err AssertionError
    | DStr s =>
        if mem s (now_strings ++ today_strings) then Ok (DTime (snd (ar_now a)))
        else match ar_time a s with
             | Some (d, t) => if eq_dec d first_day then Ok (DTime t) else Err IndexError
             | None => Err IndexError
             end
    | _ => Err IndexError
    end.
  (** 123-144. Datetime._convert; nothing is returned for what is neither a datetime nor a string *)
  Definition datetime_convert (v : dval T) : res (dval T) :=
    match v with
    | DNone => Ok DNone
    | DArrow d t | DDatetime d t => Ok (DArrow d t)
    | DStr s =>
        if mem s now_strings then Ok (DArrow (fst (ar_now a)) (snd (ar_now a)))
        else if mem s today_strings then Ok (DArrow (fst (ar_now a)) (ar_midnight a))
        else match ar_any_date a s, ar_time a s with
             | Some (d, _), Some (_, t) => Ok (DArrow d t)
             | _, _ => Err InvalidValue
             end
    | _ => Ok DNone
    end.
  (** 15-23. [_dt_serialize] with the format found in the options or the schema, already replaced by that of
      settings.DATETIME_FORMATS; only an Arrow and a str have a method
      [format] (simplification: a str without braces) *)
  Definition dt_serialize (format : option str) (v : dval T) : res (option str) :=
    match format with
    | Some (c :: f) =>
        if mem "%" (c :: f) then
          match v with DDate _ | DTime _ | DDatetime _ _ | DArrow _ _ => Ok (Some (ar_strftime a (c :: f) v)) | _ => Err AttributeError end
        else match v with DArrow _ _ => Ok (Some (ar_format a (c :: f) v)) | DStr s => Ok (Some s) | _ => Err AttributeError end
    | _ =>
        match v with
        | DNone => Ok None
        | DDate d => Ok (Some (ar_iso_date a d))
        | DTime t => Ok (Some (ar_iso_time a t))
        | DDatetime d t | DArrow d t => Ok (Some (ar_iso a d t))
        | DStr [] => Ok None
        | _ => Err AttributeError
        end
    end.
End Dates.
