(** What logging a call may and may not do *)
From Verif Require Import Log_Model.

Section Spec.
  Context {V S : Type}.
  Variable show : V -> S -> out string * S.
  Variable show_exn : exn -> S -> out string * S.

  (** states one gets by printing values and exceptions only *)
  Inductive Printed : S -> S -> Prop :=
  | printed_none s : Printed s s
  | printed_value s s' v : Printed s s' -> Printed s (snd (show v s'))
  | printed_exn s s' e : Printed s s' -> Printed s (snd (show_exn e s')).
  (** how a printing failed: it raised, or a tuple was taken for the values to format *)
  Inductive Failed {A} : out A -> Prop :=
  | failed_value v s e : fst (show v s) = Exc e -> Failed (Exc e)
  | failed_value_quit v s n : fst (show v s) = Quit n -> Failed (Quit n)
  | failed_exn e s e' : fst (show_exn e s) = Exc e' -> Failed (Exc e')
  | failed_exn_quit e s n : fst (show_exn e s) = Quit n -> Failed (Quit n)
  | failed_tuple : Failed (Exc TypeError).
End Spec.

(** the two texts of a call, when printing gives one text for each value *)
Section Texts.
  Context {V : Type}.
  Variable text : V -> string.
  Local Open Scope string_scope.
  Definition call_text (who : string) (args : list V) (kw : dict string V) : string :=
    who ++ "(" ++ String.concat ", " (map text args ++ map (fun p => (fst p ++ "=" ++ text (snd p))%string) kw)%list ++ ")".
End Texts.
