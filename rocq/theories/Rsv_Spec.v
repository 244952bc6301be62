(** What a user may expect of resolvers, written on the documents registered. *)
From Verif Require Export Rsv_Model.

(** a program step that registers nothing by itself *)
Definition quiet (o : rs_op) : Prop :=
  match o with Docs (Resolve _) | Create _ _ | Fetch _ _ => True | _ => False end.
(** the document registered under [uri], in any spelling *)
Definition registered (norm : str -> str) (w : world) (uri : str) : option pyval := dget (norm uri) (store (w_docs w)).
