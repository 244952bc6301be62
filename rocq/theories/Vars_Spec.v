(** What it is for an expression or a template to mention a name. *)
From Verif Require Import Vars_Model.
Local Open Scope char_scope. Local Open Scope list_scope.

(** letters A-Z a-z and '_' start a name; digits and '.' may follow *)
Definition letter (c : ascii) : Prop :=
  let n := nat_of_ascii c in 65 <= n <= 90 \/ 97 <= n <= 122 \/ c = "_".
Definition follower (c : ascii) : Prop := let n := nat_of_ascii c in 48 <= n <= 57 \/ c = ".".
Definition wordy (c : ascii) : Prop := letter c \/ follower c.
(** no name goes on to the right (left) of here *)
Definition ended (s : str) : Prop := match s with [] => True | c :: _ => ~ wordy c end.
Definition unopened (s : str) : Prop := s = [] \/ exists s' c, s = s' ++ [c] /\ ~ wordy c.
(** [n] stands in [s] as a whole word: only digits and dots may stick to its left *)
Definition Mentions (s n : str) : Prop :=
  exists a m c w b, s = a ++ m ++ n ++ b /\ unopened a /\ Forall follower m /\ n = c :: w /\ letter c /\ Forall wordy w /\ ended b.

(** Expressions: names, and anything made of expressions and signs. [ENode [(s1, e1); …; (sn, en)] t] is the text
    s1 e1 … sn en t; its value is any function of the values of the ei. *)
Inductive ex := EName (n : str) | ENode (args : list (str * ex)) (t : str).
Fixpoint text (e : ex) : str :=
  match e with
  | EName n => n
  | ENode args t => (fix go (l : list (str * ex)) : str := match l with [] => t | (s, x) :: l' => s ++ text x ++ go l' end) args
  end.
(** the names within an expression *)
Fixpoint names (e : ex) : list str :=
  match e with
  | EName n => [n]
  | ENode args _ => (fix go (l : list (str * ex)) : list str := match l with [] => [] | (_, x) :: l' => names x ++ go l' end) args
  end.
(** dotted names; signs end with a character that is not wordy, and start with one when they follow an expression *)
Definition NameText (n : str) : Prop := exists c w, n = c :: w /\ letter c /\ Forall wordy w.
Fixpoint WellFormed (e : ex) : Prop :=
  match e with
  | EName n => NameText n
  | ENode args t =>
      (fix go (first : bool) (l : list (str * ex)) : Prop :=
         match l with
         | [] => first = true \/ ended t
         | (s, x) :: l' => unopened s /\ (first = true \/ (s <> [] /\ ended s)) /\ WellFormed x /\ go false l'
         end) true args
  end.
Section Meaning.
  Variable V : Type.
  (** what the signs around the arguments make of their values, in any manner *)
  Variable sem : list str -> list (res V) -> res V.
  Fixpoint meaning (look : str -> res V) (e : ex) : res V :=
    match e with
    | EName n => look n
    | ENode args t => sem (map fst args ++ [t]) ((fix go (l : list (str * ex)) : list (res V) := match l with [] => [] | (_, x) :: l' => meaning look x :: go l' end) args)
    end.
End Meaning.
Arguments meaning {V}.

(** References in a template: a name, an attribute of a reference, an item of a reference; with the text they stand for *)
Inductive Reference : list tok -> str -> Prop :=
| ref_name n : n <> ["|"] -> Reference [TName n] n
| ref_attribute ts p n : Reference ts p -> n <> ["|"] -> Reference (ts ++ [TSign ["."]; TName n]) (p ++ "." :: n)
| ref_item ts p i : Reference ts p -> Reference (ts ++ [TSign ["."]; TInt i]) (p ++ "[" :: i ++ ["]"]).
(** templates whose variables are references, with or without filters; the rest is not looked at, but holds no variable *)
Inductive Template : list tok -> list str -> Prop :=
| template_nil : Template [] []
| template_other t ts vs : t <> TBegin -> Template ts vs -> Template (t :: ts) vs
| template_reference r p ts vs : Reference r p -> Template ts vs -> Template (TBegin :: r ++ TEnd :: ts) (p :: vs)
| template_filtered r p ts vs : Reference r p -> Template ts vs -> Template (TBegin :: r ++ TSign ["|"] :: ts) (p :: vs).
(** what a reference means for the object the template belongs to: "this.x" and "self.x" are its own x *)
Definition Plain (p : str) : Prop := forall a b, p <> a ++ chars "this." ++ b /\ p <> a ++ chars "self." ++ b.
Inductive Own : str -> str -> Prop :=
| own_plain p : Plain p -> Own p p
| own_this p : Plain p -> Own (chars "this." ++ p) p
| own_self p : Plain p -> Own (chars "self." ++ p) p.
