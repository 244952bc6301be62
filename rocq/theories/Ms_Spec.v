(** What is wrong with a schema, as far as the meta-schema is looked at. *)
From Verif Require Import Base PyVal Ms_Model.
Local Open Scope string_scope. Local Open Scope list_scope.

(** a schema gives, under the name 'complexTypes', something else than one of eight texts; or one of its old-style definitions does *)
Inductive Offends : pyval -> list pstep -> Prop :=
| off_here l v : dget "complexTypes" l = Some v ->
    ~ (exists t, v = VStr t /\ In t ["importable"; "path"; "uri"; "date"; "time"; "datetime"; "foreignKey"; "canonicalName"]) ->
    Offends (VDict l) [At "complexTypes"]
| off_definition l ds k s p : dget "definitions" l = Some (VDict ds) -> In (k, s) ds -> Offends s p -> Offends (VDict l) (At "definitions" :: At k :: p).
