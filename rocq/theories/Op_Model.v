(** ngoschema/query.py:93-103: the case-insensitive and regular-expression operators of a query, when the given text has
    no character special to [re]. Other patterns are left to [rx]. Simplification: the given text is in the first 128
    characters, where case is a matter of letters A to Z. A match object is [VBool true]. *)
From Verif Require Export Query_Model KeyMap_Model.
Local Open Scope char_scope.
Local Open Scope list_scope.

Definition re_specials : list ascii := ["."; "^"; "$"; "*"; "+"; "?"; "{"; "}"; "["; "]"; "\"; "|"; "("; ")"].
Definition plain_pattern (t : list ascii) : bool := forallb (fun c => negb (mem c re_specials) && Nat.ltb (nat_of_ascii c) 128) t.

Definition lower_all : list ascii -> list ascii := map lower_ascii.
(** '$' matches at the end and before a newline at the end *)
Definition at_end (s : list ascii) : bool := match s with [] => true | [c] => beq c "010" | _ => false end.
(** [re.match('^t$', s, re.IGNORECASE)] and [re.match('t$', s, re.IGNORECASE)]: both start at the start of [s] *)
Definition match_whole (t s : list ascii) : bool := is_prefix (lower_all t) (lower_all s) && at_end (skipn (length t) s).
Definition re_result (b : bool) : res pyval := Ok (if b then VBool true else VNone).

Definition plain_rx (rx : string -> string -> string -> res pyval) (op a b : string) : res pyval :=
  let s := chars a in let t := chars b in
  if plain_pattern t then
    if beq op "ieq"%string then re_result (match_whole t s)                                                    (* 97-98 *)
    else if beq op "istartswith"%string then re_result (is_prefix (lower_all t) (lower_all s))                 (* 99-100 *)
    else if beq op "iendswith"%string then re_result (match_whole t s)                                         (* 101-102 *)
    else if beq op "icontains"%string then re_result (contains_sub (lower_all t) (lower_all s))                (* 103-104 *)
    else if beq op "regex"%string then re_result (is_prefix t s)                                               (* 105-106 *)
    else rx op a b
  else rx op a b.
Definition query_op (rx : string -> string -> string -> res pyval) : string -> pyval -> pyval -> res pyval := std_op (plain_rx rx).
