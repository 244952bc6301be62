(** The commands of a command line: ngoschema/cli/__init__.py, ComplexCLI 33-58. Texts are character lists; letters and digits are ASCII
    (simplification). The functions of inflection (the library) are given with the regular expressions they run. *)
From Coq Require Import Ascii.
From Verif Require Import Base.
Local Open Scope char_scope.
Local Open Scope list_scope.

Definition within (a b : nat) (c : ascii) : bool := Nat.leb a (nat_of_ascii c) && Nat.leb (nat_of_ascii c) b.
Definition upper (c : ascii) : bool := within 65 90 c.
Definition lower (c : ascii) : bool := within 97 122 c.
Definition digit (c : ascii) : bool := within 48 57 c.
Definition to_lower (c : ascii) : ascii := if upper c then ascii_of_nat (nat_of_ascii c + 32) else c.
(** [word.replace(a, b)] for single characters *)
Definition swap (a b : ascii) (s : list ascii) : list ascii := map (fun c => if beq c a then b else c) s.
(** [inflection.dasherize]: [word.replace('_', '-')] *)
Definition dasherize (s : list ascii) : list ascii := swap "_" "-" s.
(** [re.sub(r"([A-Z]+)([A-Z][a-z])", r'\1_\2', word)]: before an upper case letter between an upper case and a lower case one. [prev]: is
    the character before an upper case letter *)
Fixpoint split_acronym (prev : bool) (s : list ascii) : list ascii :=
  match s with
  | [] => []
  | c :: s' => let next := match s' with d :: _ => lower d | [] => false end in
               (if prev && upper c && next then ["_"; c] else [c]) ++ split_acronym (upper c) s'
  end.
(** [re.sub(r"([a-z\d])([A-Z])", r'\1_\2', word)] *)
Fixpoint split_camel (prev : bool) (s : list ascii) : list ascii :=
  match s with
  | [] => []
  | c :: s' => (if prev && upper c then ["_"; c] else [c]) ++ split_camel (lower c || digit c) s'
  end.
(** [inflection.underscore] *)
Definition underscore (s : list ascii) : list ascii := map to_lower (swap "-" "_" (split_camel false (split_acronym false s))).

(** [list.sort] on texts *)
Fixpoint text_le (a b : list ascii) : bool :=
  match a, b with
  | [], _ => true
  | _ :: _, [] => false
  | x :: a', y :: b' => if Nat.ltb (nat_of_ascii x) (nat_of_ascii y) then true else if Nat.ltb (nat_of_ascii y) (nat_of_ascii x) then false else text_le a' b'
  end.
Fixpoint put_in (x : list ascii) (l : list (list ascii)) : list (list ascii) :=
  match l with [] => [x] | y :: l' => if text_le x y then x :: l else y :: put_in x l' end.
Definition sort (l : list (list ascii)) : list (list ascii) := fold_right put_in [] l.

(** [s.startswith(t)] *)
Fixpoint starts (t s : list ascii) : bool :=
  match t, s with [], _ => true | _, [] => false | x :: t', y :: s' => beq x y && starts t' s' end.
Definition ends (t s : list ascii) : bool := starts (rev t) (rev s).
Definition cmd_ : list ascii := ["c"; "m"; "d"; "_"].
Definition dot_py : list ascii := ["."; "p"; "y"].
(** 40-46; [files]: what [os.listdir(self.cmd_folder)] gives *)
Definition list_commands (files : list (list ascii)) : list (list ascii) :=
  sort (flat_map (fun f => if ends dot_py f && starts cmd_ f then [dasherize (firstn (length f - 4 - 3) (skipn 4 f))] else []) files).

(** 48-58. [import] is [__import__] of a module of the package of commands, by its last name: a module with its [cli] if it has one, an
    ImportError, or another exception. *)
Inductive imported (C : Type) := Module (cli : option C) | NoModule | Raised (e : exn).
Arguments Module {C}. Arguments NoModule {C}. Arguments Raised {C}.
Definition get_command {C} (import : list ascii -> imported C) (name : list ascii) : res (option C) :=
  match import (cmd_ ++ underscore name) with
  | NoModule => Ok None
  | Raised e => Err e
  | Module (Some c) => Ok (Some c)
  | Module None => Err AttributeError
  end.
