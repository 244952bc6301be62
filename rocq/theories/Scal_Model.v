(** Evaluation of scalar values: ngoschema/protocols/checker.py, converter.py, validator.py, ngoschema/types/type.py,
    strings.py and numerics.py. Simplifications: the types Integer, Number and String; a float is a decimal fraction (every
    finite float is one), infinities and NaN are left out; reading a number in a text, printing a value, evaluating an
    expression and rendering a template are functions given from outside (they belong to Python and jinja2); the schema
    keywords are those of jsonschema listed below. The keywords that jsonschema runs are those of [jsch_validators_registry]
    (managers/jsch_validators.py:17-51), where "type" is missing, and it asks [TypeBuilder.is_type]
    (managers/type_builder.py:51-56, 166) whether a value is a number or a string. *)
From Verif Require Export Base.

(** [SFloat m k] and [SDec m k] stand for the number m / 10^k *)
Inductive sval :=
| SNone | SBool (b : bool) | SInt (z : Z) | SFloat (m : Z) (k : nat) | SDec (m : Z) (k : nat) | SStr (s : list ascii) | SOther (n : nat).

Inductive stype := TInteger | TNumber | TString.

(** schema keywords; a schema is a list of keywords *)
Inductive kword :=
| KMin (m : Z) (k : nat) | KMax (m : Z) (k : nat) | KExMin (m : Z) (k : nat) | KExMax (m : Z) (k : nat)
| KMinLen (n : nat) | KMaxLen (n : nat) | KType (t : stype)
| KAllOf (l : list (list kword)) | KAnyOf (l : list (list kword)) | KNot (s : list kword).
Definition schema := list kword.
Definition path := list (string + nat).

Definition pow10 (k : nat) : Z := Z.pow 10 (Z.of_nat k).
(** the number a value is: [Number._check] (numerics.py:43-46) accepts every [numbers.Number], booleans too *)
Definition number_of (v : sval) : option (Z * nat) :=
  match v with SBool b => Some (if b then 1%Z else 0%Z, 0) | SInt z => Some (z, 0) | SFloat m k | SDec m k => Some (m, k) | _ => None end.
Definition num_le (a b : Z * nat) : bool := Z.leb (fst a * pow10 (snd b)) (fst b * pow10 (snd a)).
Definition num_lt (a b : Z * nat) : bool := Z.ltb (fst a * pow10 (snd b)) (fst b * pow10 (snd a)).
Definition on_number (v : sval) (ok : Z * nat -> bool) : bool := match number_of v with Some n => ok n | None => true end.
Definition on_text (v : sval) (ok : list ascii -> bool) : bool := match v with SStr s => ok s | _ => true end.

Section WithText.
  (** one path of keywords and positions per error, as jsonschema's [iter_errors] yields them *)
  Definition fail_unless (name : string) (b : bool) : list path := if b then [] else [[inl name]].
  Fixpoint kerrors (v : sval) (k : kword) {struct k} : list path :=
    let each := fix each (s : schema) : list path := match s with [] => [] | k' :: s' => kerrors v k' ++ each s' end in
    match k with
    | KMin m d => fail_unless "minimum" (on_number v (fun n => num_le (m, d) n))
    | KMax m d => fail_unless "maximum" (on_number v (fun n => num_le n (m, d)))
    | KExMin m d => fail_unless "exclusiveMinimum" (on_number v (fun n => num_lt (m, d) n))
    | KExMax m d => fail_unless "exclusiveMaximum" (on_number v (fun n => num_lt n (m, d)))
    | KMinLen n => fail_unless "minLength" (on_text v (fun s => Nat.leb n (length s)))
    | KMaxLen n => fail_unless "maxLength" (on_text v (fun s => Nat.leb (length s) n))
    | KType _ => []                                                  (* not in the registry of keywords: never checked *)
    | KAllOf l => map (cons (inl "allOf"%string))
        ((fix go (i : nat) (l : list schema) : list path :=
            match l with [] => [] | s :: l' => map (cons (inr i)) (each s) ++ go (S i) l' end) 0 l)
    | KAnyOf l => fail_unless "anyOf"
        ((fix go (l : list schema) : bool :=
            match l with [] => false | s :: l' => match each s with [] => true | _ => go l' end end) l)
    | KNot s => fail_unless "not" (match each s with [] => false | _ => true end)
    end.
  Definition errors (s : schema) (v : sval) : list path := flat_map (kerrors v) s.
  (** validator.py:48-58: '/'.join of each path; joining a position raises TypeError *)
  Definition joinable (p : path) : bool := forallb (fun x => match x with inl _ => true | inr _ => false end) p.
  Definition untyped (s : schema) : schema := filter (fun k => match k with KType _ => false | _ => true end) s.
  (** 60-72 [_format_errors], [_validate] *)
  Definition validate (with_type : bool) (s : schema) (v : sval) : res sval :=
    let es := errors (if with_type then s else untyped s) v in
    if negb (forallb joinable es) then Err TypeError
    else match es with [] => Ok v | _ => Err InvalidValue end.

  Variable int_of : list ascii -> option Z.                                              (* int(text) *)
  Variable dec_of : list ascii -> option (Z * nat).                                      (* Decimal(text) *)
  Variable show : sval -> list ascii.                                                    (* str(value) *)
  Variable eval : list ascii -> res sval.                                                (* eval(text[1:], context) *)
  Variable render : list ascii -> res (list ascii).                                      (* TemplatedString(text)(context) *)

  (** converter.py:19-30: None and instances as they are, otherwise the constructor of the type *)
  Definition type_convert (t : stype) (v : sval) : res sval :=
    match t, v with
    | _, SNone => Ok SNone
    | TInteger, (SInt _ | SBool _) => Ok v                                               (* isinstance(True, int) *)
    | TInteger, (SFloat m k | SDec m k) => Ok (SInt (Z.quot m (pow10 k)))
    | TInteger, SStr s => match int_of s with Some z => Ok (SInt z) | None => Err ConversionError end
    | TInteger, SOther _ => Err ConversionError
    | TNumber, SDec _ _ => Ok v
    | TNumber, SInt z => Ok (SDec z 0)
    | TNumber, SBool b => Ok (SDec (if b then 1 else 0) 0)
    | TNumber, SFloat m k => Ok (SDec m k)
    | TNumber, SStr s => match dec_of s with Some (m, k) => Ok (SDec m k) | None => Err ConversionError end
    | TNumber, SOther _ => Err ConversionError
    | TString, SStr _ => Ok v
    | TString, _ => Ok (SStr (show v))
    end.
  (** strings.py:46-50, 68-72 *)
  Definition is_expr (v : sval) : bool := match v with SStr ("`"%char :: _) => true | _ => false end.
  Fixpoint has_pair (a : ascii) (bs : list ascii) (s : list ascii) : bool :=
    match s with
    | x :: ((y :: _) as s') => (beq x a && mem y bs) || has_pair a bs s'
    | _ => false
    end.
  Definition is_pattern (v : sval) : bool := match v with SStr s => has_pair "{"%char ["{"%char; "%"%char] s | _ => false end.
  Definition text_of (v : sval) : list ascii := match v with SStr s => s | _ => [] end.
  Definition truth_of (v : sval) : bool :=
    match v with
    | SNone => false | SBool b => b | SInt z => negb (Z.eqb z 0) | SFloat m _ | SDec m _ => negb (Z.eqb m 0)
    | SStr s => match s with [] => false | _ => true end | SOther _ => true
    end.
  (** strings.py:53-58: the value of an expression is converted to the type of Expr, which is str *)
  Definition expr_convert (v : sval) : res sval := do x <- eval (text_of v); type_convert TString x.
  Definition pattern_convert (v : sval) : res sval := do t <- render (text_of v); Ok (SStr t).
  (** type.py:67-81; 78: errors are logged and the text is kept *)
  Definition prim_convert (t : stype) (raw_literals : bool) (v : sval) : res sval :=
    if raw_literals then Ok v
    else
      let v' := if truth_of v
                then if is_expr v then match expr_convert v with Ok x => x | Err _ => v end
                     else if is_pattern v then match pattern_convert v with Ok x => x | Err _ => v end else v
                else v in
      type_convert t v'.
  (** validator.py:74-85 *)
  Definition evaluate (t : stype) (default : sval) (s : schema) (raw_literals : bool) (v : sval) : res sval :=
    match v, default with
    | SNone, SNone => Ok SNone
    | _, _ => let v := match v with SNone => default | _ => v end in
              do w <- prim_convert t raw_literals v;
              do _ <- validate false s w;
              Ok w
    end.
End WithText.
