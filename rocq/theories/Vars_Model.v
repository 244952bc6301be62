(** The names a raw value mentions, on which its evaluation depends: ngoschema/types/strings.py:42-84 (Expr, Pattern),
    types/type.py:57-65 (Primitive._inputs), 67-81 (Primitive._convert), utils/jinja2.py:68-92 (get_jinja2_variables).
    Simplifications: texts are byte strings and only the first 128 characters are letters; the lexer of jinja2 is a
    function given from outside, from the text to its tokens. *)
From Verif Require Export Base Query_Model Ns_Model Scal_Model.
Local Open Scope char_scope. Local Open Scope list_scope.

(** * Expressions *)
(** strings.py:43: [[a-zA-Z_]+[\w\.]*]; the first class is within the second, so that a match is one character of the first
    and then as many as possible of the second *)
Definition starts_name (c : ascii) : bool := is_lower c || is_upper c || beq c "_".
Definition name_char (c : ascii) : bool := starts_name c || is_digit c || beq c ".".
(** [findall]: the rest of the match under way, if [inside], and the matches after it *)
Fixpoint scan (inside : bool) (s : str) : str * list str :=
  match s with
  | [] => ([], [])
  | c :: s' =>
      if inside then
        if name_char c then let (w, ms) := scan true s' in (c :: w, ms)
        else ([], snd (scan false s'))
      else if starts_name c then let (w, ms) := scan true s' in ([], (c :: w) :: ms)
      else scan false s'
  end.
(** strings.py:61-62; a set *)
Definition expr_inputs (builtins : list str) (value : str) : list str :=
  filter (fun n => negb (mem n builtins)) (dedup (snd (scan false value))).

(** * Templates *)
(** tokens of jinja2: the beginning and end of a variable, words, other signs, integers (by their numeral) and other
    numbers, whose value is not a text, texts in quotes; [TElse] is anything outside, with its text *)
Inductive tok := TBegin | TEnd | TName (s : str) | TSign (s : str) | TInt (s : str) | TFloat | TText (s : str) | TElse (s : str).
(** [t.value] *)
Definition tok_value (t : tok) : option str :=
  match t with
  | TName s | TSign s | TText s | TElse s => Some s
  | TBegin => Some (chars "{{") | TEnd => Some (chars "}}")
  | TInt _ | TFloat => None
  end.
(** [''.join(var)]: TypeError when an element is not a text *)
Fixpoint join_all (var : list (option str)) : res str :=
  match var with
  | [] => Ok []
  | Some s :: var' => do r <- join_all var'; Ok (s ++ r)
  | None :: _ => Err TypeError
  end.
(** jinja2.py:76-90; [var] is reversed *)
Fixpoint variables (processing : bool) (var : list (option str)) (ts : list tok) : res (list str) :=
  match ts with
  | [] => Ok []
  | TBegin :: ts' => variables true var ts'
  | t :: ts' =>
      if processing then
        if (match t with TEnd => true | _ => beq (tok_value t) (Some ["|"]) end) then
          do v <- join_all (rev var); do vs <- variables false [] ts'; Ok (v :: vs)
        else
          match t with
          | TInt n =>
              match var with
              | [] => Err IndexError
              | x :: var' => if beq x (Some ["."]) then variables true (Some ("[" :: n ++ ["]"]) :: var') ts'
                             else variables true (None :: var) ts'
              end
          | _ => variables true (tok_value t :: var) ts'
          end
      else variables false var ts'
  end.
(** [s.replace(old, '')]; [skip] characters are still to be dropped *)
Fixpoint remove_all (old : str) (skip : nat) (s : str) : str :=
  match s with
  | [] => []
  | c :: s' => match skip with
               | S n => remove_all old n s'
               | 0 => if is_prefix old s then remove_all old (pred (length old)) s' else c :: remove_all old 0 s'
               end
  end.
(** 91-92, with [remove_this] *)
Definition without_this (v : str) : str := remove_all (chars "self.") 0 (remove_all (chars "this.") 0 v).
Definition template_inputs (ts : list tok) : res (list str) := do vs <- variables false [] ts; Ok (map without_this vs).

(** type.py:57-65: a text with '{{' or '{%' is taken for a template, even when it starts like an expression; [raw] is the option
    raw_literals *)
Definition value_inputs (builtins : list str) (lex : str -> res (list tok)) (raw : bool) (value : sval) : res (list str) :=
  match value with
  | SStr s => if raw then Ok []
              else if is_pattern value then do ts <- lex s; template_inputs ts
              else if is_expr value then Ok (expr_inputs builtins s) else Ok []
  | _ => Ok []
  end.
