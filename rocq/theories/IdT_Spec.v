(** Vocabulary for identifiers. *)
From Verif Require Export Ns_Spec.
Local Open Scope char_scope. Local Open Scope list_scope.

(** [u] is the element [f] of the document [d] *)
Definition Ref (d f u : list ascii) : Prop := u = d ++ "#" :: f /\ ~ In "#" d /\ ~ In "#" f.
(** a canonical name: letters, digits, underscores and dots *)
Definition CName (v : list ascii) : Prop := v <> [] /\ forall c, In c v -> Letter c \/ Digit c \/ c = "_" \/ c = ".".
(** the document of the current namespace, its uri with or without a fragment *)
Definition Doc (cur_uri d : list ascii) : Prop := ~ In "#" d /\ (cur_uri = d \/ exists f, cur_uri = d ++ "#" :: f).
