(** What a listing of namespaces is expected to say. *)
From Verif Require Import Base Ns_Model Ns_Spec.
Local Open Scope char_scope. Local Open Scope list_scope.

(** where a name leads: to its local entry, else to the one of the first parent knowing it, else to the one of the type builder,
    else to the last document that would be called so *)
Inductive LeadsTo (m : mgr) (n u : list ascii) : Prop :=
| leads_local : dget n (m_local m) = Some u -> LeadsTo m n u
| leads_parent before p after : dget n (m_local m) = None -> m_parents m = before ++ p :: after ->
    (forall q, In q before -> dget n q = None) -> dget n p = Some u -> LeadsTo m n u
| leads_builder : dget n (m_local m) = None -> (forall q, In q (m_parents m) -> dget n q = None) -> dget n (m_builder m) = Some u -> LeadsTo m n u
| leads_document before doc after : dget n (m_local m) = None -> (forall q, In q (m_parents m) -> dget n q = None) -> dget n (m_builder m) = None ->
    m_docs m = before ++ (u, doc) :: after -> uri_to_cname u = n -> (forall v d, In (v, d) after -> uri_to_cname v <> n) -> LeadsTo m n u.

(** the strict order of texts *)
Definition Before (a b : list ascii) : Prop := LexLe a b /\ a <> b.
