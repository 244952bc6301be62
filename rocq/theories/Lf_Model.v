(** Values in log messages: [log_format] and [lazy_format] of ngoschema/utils/str_utils.py:28-143, with what they use of python's
    pprint ([PrettyPrinter.pformat] and [_safe_repr]) and of [repr] of texts.
    Simplifications: only the printer [_pprinter] of line 124 is modelled (indent 0, depth 2, width 10000, the limits of
    config/settings.py:61-62), whose writers of wrapped lines (38-73) are modelled as the outcome [Wrapped] only; characters are the
    first 256; keys of mappings are texts; values are trees, so the test for recursion (77-82) never succeeds; no class of the
    code base has the attribute [__propinfo__] of line 80. *)
From Verif Require Export Base Str_Model.
From Coq Require Import Ascii DecimalString NArith.
Notation str := (list ascii).
Definition chars (s : string) : str := list_ascii_of_string s.

(** a text; a value that is neither text nor collection, with its repr; a set, with its repr; a list or tuple; a mapping, with its
    members in order of insertion *)
Inductive seqk := KList | KTup.
Inductive lv := LText (s : str) | LOther (rep : str) | LSet (rep : str) | LSeq (k : seqk) (l : list lv) | LMap (items : list (str * lv)).

(** [repr] of a text: the quote is the single one unless the text has one and no double one; the quote, the backslash and what cannot
    be printed are escaped *)
Definition sq : ascii := "'"%char.
Definition dq : ascii := "034"%char.
Definition quote (s : str) : ascii := if mem sq s && negb (mem dq s) then dq else sq.
Definition printable (c : ascii) : bool :=
  let n := N_of_ascii c in (N.leb 32 n && N.ltb n 127) || (N.leb 161 n && negb (N.eqb n 173)).
Definition hex (n : N) : ascii := if N.ltb n 10 then ascii_of_N (48 + n) else ascii_of_N (87 + n).
Definition esc (q c : ascii) : str :=
  if Ascii.eqb c q || Ascii.eqb c "\" then ["\"%char; c]
  else if Ascii.eqb c "009" then chars "\t" else if Ascii.eqb c "010" then chars "\n" else if Ascii.eqb c "013" then chars "\r"
  else if printable c then [c]
  else ["\"; "x"; hex (N_of_ascii c / 16); hex (N_of_ascii c mod 16)]%char.
Definition repr (s : str) : str := let q := quote s in q :: flat_map (esc q) s ++ [q].

(** [sorted(object.items(), key=_safe_tuple)]: by key, texts being compared character by character *)
Fixpoint text_leb (a b : str) : bool :=
  match a, b with
  | [], _ => true
  | _ :: _, [] => false
  | x :: a', y :: b' => if N.ltb (N_of_ascii x) (N_of_ascii y) then true else if N.ltb (N_of_ascii y) (N_of_ascii x) then false else text_leb a' b'
  end.
Fixpoint insert (it : str * lv) (l : list (str * lv)) : list (str * lv) :=
  match l with
  | [] => [it]
  | x :: l' => if text_leb (fst it) (fst x) then it :: l else x :: insert it l'
  end.
Definition sort_items (l : list (str * lv)) : list (str * lv) := fold_right insert [] l.

Definition wrap (k : seqk) (n : nat) (body : str) : str :=
  match k with
  | KList => chars "[" ++ body ++ chars "]"
  | KTup => chars "(" ++ body ++ (if Nat.eqb n 1 then chars ",)" else chars ")")
  end.
(** pprint's [_safe_repr]; [rem] is [maxlevels - level] *)
Fixpoint safe_repr (rem : nat) (v : lv) : str :=
  match v with
  | LText s => repr s
  | LOther t | LSet t => t
  | LSeq k [] => wrap k 0 []
  | LSeq k l => match rem with
                | O => wrap k (length l) (chars "...")
                | S r => wrap k (length l) (ljoin (chars ", ") (map (safe_repr r) l))
                end
  | LMap [] => chars "{}"
  | LMap l => match rem with
              | O => chars "{...}"
              | S r => chars "{" ++ ljoin (chars ", ") (map (fun it => repr (fst it) ++ chars ": " ++ safe_repr r (snd it)) (sort_items l)) ++ chars "}"
              end
  end.

(** config/settings.py:61-62, str_utils.py:33-35 and 124 *)
Definition max_el : nat := 10.
Definition max_strl : nat := 40.
Definition max_coll_len : nat := max_el * max_strl.
Definition depth : nat := 2.
Definition width : N := 10000.
(** ['+%i...' % n] *)
Definition mark (n : nat) : str := chars "+" ++ chars (NilEmpty.string_of_uint (Nat.to_uint n)) ++ chars "...".

(** the text written to the stream (122), or lines wrapped by the writers of the type (110-121) *)
Inductive written := Line (t : str) | Wrapped.
(** 87-101, at level 0: [close] is the closing bracket *)
Definition shortened (len : nat) (rep close : str) : res str :=
  do rep <- (if Nat.leb max_el len then rreplace rep close (mark (len - max_el) ++ close) 1 else Ok rep);
  let m := (1 + depth - 0) * max_coll_len in
  Ok (if Nat.leb m (length rep) then firstn m rep ++ chars "..." ++ close else rep).
(** str_utils.py:75-122 [_format] for the arguments of [pformat]: indent, allowance and level 0. Lines 87-101 come before 102, so
    texts are not collections; [object[0:self._maxEl]] of a set (97) raises *)
Definition log_format (v : lv) : res written :=
  do rep <- match v with
            | LMap items => shortened (length items) (safe_repr depth (LMap (firstn max_el items))) (chars "}")
            | LSeq _ l => shortened (length l) (safe_repr depth (LSeq KList (firstn max_el l))) (chars "]")
            | LSet _ => Err TypeError
            | LText s => Ok (if Nat.leb max_strl (length s) then safe_repr depth (LText (firstn max_strl s ++ mark (length s - max_strl))) else safe_repr depth v)
            | LOther _ => Ok (safe_repr depth v)
            end;
  Ok (if N.ltb width (N.of_nat (length rep)) then match v with LOther _ => Line rep | _ => Wrapped end else Line rep).

(** str_utils.py:128-143 [lazy_format] with positional arguments: [fmt] stands for [fmt.format]. [str] formats the arguments asked
    for in place (139-142); a line of log is a text. *)
Record lazy := { l_args : list lv; l_to_format : list nat }.
Definition set_nth {A} (n : nat) (x : A) (l : list A) : list A := firstn n l ++ x :: skipn (S n) l.
Fixpoint format_args (ns : list nat) (args : list lv) : res (list lv) :=
  match ns with
  | [] => Ok args
  | n :: ns' =>
      match nth_error args n with
      | None => Err IndexError
      | Some v => do w <- log_format v;
                  match w with Line t => format_args ns' (set_nth n (LText t) args) | Wrapped => Err OutOfFuel end
      end
  end.
Definition lazy_str (fmt : list lv -> str) (z : lazy) : res str * lazy :=
  match format_args (l_to_format z) (l_args z) with
  | Ok args => (Ok (fmt args), {| l_args := args; l_to_format := l_to_format z |})
  | Err e => (Err e, z)
  end.
