(** Specification vocabulary for building types (C43) and the ancestors of a schema (C44). *)
From Verif Require Import Base TB_Model.
Local Open Scope list_scope.

(** [Mentions c u]: a proxy for [u] is part of the type [c], at any depth *)
Inductive Mentions : cls -> uri -> Prop :=
| M_proxy n u : Mentions (Proxy n u) u
| M_part n id ps p u : In p ps -> Mentions p u -> Mentions (Class n id ps) u.

(** how deep a schema is nested *)
Fixpoint depth (s : sch) : nat :=
  match s with
  | SBool _ => 0
  | SRef _ _ _ => 1
  | SNode _ l => S ((fix go l := match l with [] => 0 | x :: l' => Nat.max (depth_step x) (go l') end) l)
  end
with depth_step (x : step) : nat := match x with Sub _ s => depth s | _ => 0 end.

(** the uris that the schema [s] at [id] refers to, inside it at any depth *)
Fixpoint mentions (id : uri) (s : sch) : list uri :=
  match s with
  | SBool _ => []
  | SRef _ r rest => scope r id :: match rest with Some ext => map (fun e => scope e id) ext | None => [] end
  | SNode _ l => (fix go l := match l with [] => [] | x :: l' => mentions_step id x ++ go l' end) l
  end
with mentions_step (id : uri) (x : step) : list uri :=
  match x with LoadRef u => [scope u id] | LoadDef sf => [id ++ sf] | Sub sf s => mentions (id ++ sf) s end.

(** a finite set of uris containing every uri referred to by the schemas at these uris *)
Definition Closed (resolve : uri -> res sch) (dom : list uri) : Prop :=
  forall u s, In u dom -> resolve u = Ok s -> incl (mentions u s) dom.

(** every call of the history returned a type *)
Fixpoint all_ok resolve fails underscore (n : nat) (os : list op) (st : tb) : Prop :=
  match os with
  | [] => True
  | o :: os' => is_ok (fst (tb_step resolve fails underscore n o st)) = true /\
                all_ok resolve fails underscore n os' (snd (tb_step resolve fails underscore n o st))
  end.

(** * C44 *)
Section Ext.
  Variable ext : uri -> res (list uri).
  (** [p] is a direct base of the schema at [id] that extends [es] *)
  Definition Base_of (id : uri) (es : list uri) (p : uri) : Prop := exists e, In e es /\ p = scope e id.
  (** [Parent p u]: the schema at [u] extends [p] *)
  Definition Parent (p u : uri) : Prop := exists es, ext u = Ok es /\ Base_of u es p.
  (** ancestors of the schema at [id] that extends [es] *)
  Inductive Anc (id : uri) (es : list uri) : uri -> Prop :=
  | Anc_base p : Base_of id es p -> Anc id es p
  | Anc_up q p : Anc id es q -> Parent p q -> Anc id es p.
  (** a path through the extends graph, by position: [At id es p u] says that following the positions [p] leads to [u] *)
  Inductive At : uri -> list uri -> list nat -> uri -> Prop :=
  | At_here id es n e : nth_error es n = Some e -> At id es [n] (scope e id)
  | At_up id es n e x p u : nth_error es n = Some e -> ext (scope e id) = Ok x -> At (scope e id) x p u -> At id es (n :: p) u.
  (** depth-first order: position by position, a path before its extensions *)
  Inductive Lex : list nat -> list nat -> Prop :=
  | Lex_nil n p : Lex [] (n :: p)
  | Lex_lt n m p q : n < m -> Lex (n :: p) (m :: q)
  | Lex_eq n p q : Lex p q -> Lex (n :: p) (n :: q).
End Ext.
Definition Precedes {A} (x y : A) (l : list A) : Prop := exists l1 l2 l3, l = l1 ++ x :: l2 ++ y :: l3.
