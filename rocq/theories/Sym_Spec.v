(** Vocabulary for symbols. *)
From Verif Require Export Sym_Model.
Local Open Scope char_scope. Local Open Scope list_scope.

Section Spec.
  Context {O : Type}.
  Variable w : world O.
  (** None, the empty string and objects that are false *)
  Definition Falsy (v : sval O) : Prop := v = SNone \/ v = SStr [] \/ exists o, v = SObj o /\ w_truthy w o = false.
  (** reading the attributes in turn, none of them false; empty names do not count *)
  Inductive Leads : sval O -> list str -> sval O -> Prop :=
  | leads_end v : Leads v [] v
  | leads_empty v l v' : Leads v l v' -> Leads v ([] :: l) v'
  | leads_attr v a l x v' : a <> [] -> w_attr w v a = Some x -> ~ Falsy x -> Leads x l v' -> Leads v (a :: l) v'.
  (** the module named by the words [ms] leads to [v] by the words [ns] *)
  Definition Imports (ms ns : list str) (v : sval O) : Prop := exists m, w_import w (ljoin ["."] ms) = Some m /\ Leads (SObj m) ns v.
  (** the words of a dotted name *)
  Definition Words (s : str) (ws : list str) : Prop := ws <> [] /\ s = ljoin ["."] ws /\ forall x, In x ws -> ~ In "." x.
  (** [v] is what the dotted name with words [ws] stands for: by the longest module prefix that leads somewhere *)
  Definition Stands (ws : list str) (v : sval O) : Prop :=
    exists ms ns, ws = ms ++ ns /\ ms <> [] /\ Imports ms ns v /\
      forall ms' ns' v', ws = ms' ++ ns' -> length ms < length ms' -> ~ Imports ms' ns' v'.
End Spec.
