(** Under which URI a schema is registered, and where a file is looked for. *)
From Verif Require Export Ls_Model.
Local Open Scope char_scope. Local Open Scope list_scope.

(** "$id" goes before "id" *)
Inductive HasId : schema -> str -> Prop :=
| has_did s i : sc_did s = Some i -> HasId s i
| has_id s i : sc_did s = None -> sc_id s = Some i -> HasId s i.
(** [u] is [i] without the hashes at its end *)
Definition Unhashed (i u : str) : Prop := (exists n, i = u ++ repeat "#" n) /\ forall p, u <> p ++ ["#"].
Inductive SchemaUri (param : str -> str) (s : schema) : str -> Prop :=
| uri_id i u : HasId s i -> Unhashed i u -> u <> [] -> SchemaUri param s u
| uri_title i t : HasId s i -> Unhashed i [] -> sc_title s = Some t -> param t <> [] -> SchemaUri param s (param t).
(** the schema a file stands for: named after the file if it has no "$id" *)
Inductive Provides (f : file) : schema -> Prop :=
| provides_own s i : f_schema f = Some s -> sc_did s = Some i -> Provides f s
| provides_stem s : f_schema f = Some s -> sc_did s = None ->
    Provides f {| sc_did := Some (f_stem f); sc_id := sc_id s; sc_title := sc_title s; sc_body := sc_body s |}.
(** [s] is the last of the files' schemas whose URI satisfies [P] *)
Inductive LastOf (param : str -> str) (P : str -> Prop) : list file -> schema -> Prop :=
| last_here f s u fs : Provides f s -> SchemaUri param s u -> P u -> (forall f' s' u', In f' fs -> Provides f' s' -> SchemaUri param s' u' -> ~ P u') -> LastOf param P (f :: fs) s
| last_later f fs s : LastOf param P fs s -> LastOf param P (f :: fs) s.
(** the first folder of [l] that has [path] gives [p] *)
Inductive FirstIn {F} (holds : F -> str -> option str) (path p : str) : list F -> Prop :=
| first_here f l : holds f path = Some p -> FirstIn holds path p (f :: l)
| first_later f l : holds f path = None -> FirstIn holds path p l -> FirstIn holds path p (f :: l).
