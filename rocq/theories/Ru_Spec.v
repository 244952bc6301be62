(** Paths of URLs as lists of names. *)
From Verif Require Import Base Ru_Model.
Local Open Scope list_scope.
Local Open Scope char_scope.

(** a name in a path: not empty, no slash, not "." or ".." *)
Definition Name (s : str) : Prop := s <> [] /\ ~ In "/" s /\ s <> ["."] /\ s <> ["."; "."].
Definition Names (l : list str) : Prop := forall s, In s l -> Name s.
(** "/a/b/c"; the root is "" *)
Definition path_of (l : list str) : str := flat_map (fun s => "/" :: s) l.
(** the directory of a path: all but its last name *)
Definition dir_of (l : list str) : list str := removelast l.
(** [p] is [q] or above it *)
Definition Above (p q : list str) : Prop := exists r, q = p ++ r.
