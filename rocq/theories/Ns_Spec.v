(** Vocabulary for the namespace properties. *)
From Verif Require Export PyVal Query_Model Str_Model.
Local Open Scope char_scope. Local Open Scope list_scope.

(** [c] is [cname] or one of its dotted prefixes *)
Definition Within (c cname : list ascii) : Prop := cname = c \/ exists r, cname = c ++ "." :: r.
Definition Prefix (p s : list ascii) : Prop := exists r, s = p ++ r.

(** lexicographic order *)
Inductive LexLe : list ascii -> list ascii -> Prop :=
| lex_nil t : LexLe [] t
| lex_lt a b s t : nat_of_ascii a < nat_of_ascii b -> LexLe (a :: s) (b :: t)
| lex_eq a s t : LexLe s t -> LexLe (a :: s) (a :: t).

Definition Letter (c : ascii) : Prop := 65 <= nat_of_ascii c <= 90 \/ 97 <= nat_of_ascii c <= 122.
Definition Digit (c : ascii) : Prop := 48 <= nat_of_ascii c <= 57.
(** names made of letters, digits and underscores *)
Definition Plain (n : list ascii) : Prop := n <> [] /\ forall c, In c n -> Letter c \/ Digit c \/ c = "_".
Definition dotted (names : list (list ascii)) : list ascii := ljoin ["."] names.

(** [k] is a key at some depth of a document *)
Inductive HasKey : pyval -> list ascii -> Prop :=
| hk_here l k v : In (k, v) l -> HasKey (VDict l) (chars k)
| hk_dict l k v k' : In (k, v) l -> HasKey v k' -> HasKey (VDict l) k'
| hk_list l v k' : In v l -> HasKey v k' -> HasKey (VList l) k'
| hk_tup l v k' : In v l -> HasKey v k' -> HasKey (VTup l) k'.

(** a dotted name read as that of a property: at least three names, a capitalised one followed by one in lower case *)
Definition Capitalised (w : list ascii) : Prop := exists c r, w = c :: r /\ 65 <= nat_of_ascii c <= 90.
Definition LowerCase (w : list ascii) : Prop := exists c r, w = c :: r /\ 97 <= nat_of_ascii c <= 122.
Definition PropertyName (names : list (list ascii)) : Prop := exists x l T p, names = (x :: l) ++ [T; p] /\ Capitalised T /\ LowerCase p.

(** a word of an address within a canonical name: dashes become underscores, and a word starting with a digit (as a version)
    is joined to the word before by an underscore *)
Definition underscored (w : list ascii) : list ascii := map (fun c => if Ascii.eqb c "-" then "_" else c) w.
Definition numbered (w : list ascii) : bool :=
  match w with c :: _ => Nat.leb 48 (nat_of_ascii c) && Nat.leb (nat_of_ascii c) 57 | [] => false end.
Definition joined (w : list ascii) : list ascii := match w with [] => [] | _ => (if numbered w then "_" else ".") :: underscored w end.
