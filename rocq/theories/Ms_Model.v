(** Checking a schema against the meta-schema when a type is made: TypeBuilder.check_schema (ngoschema/managers/type_builder.py:108-111),
    called by Validator.__init__ (protocols/validator.py:33), with the shared [default_meta_validator] (managers/jsch_validators.py:111-119),
    the keyword [$recursiveRef] (54-72), and the meta-schema itself (ngoschema/schemas/ngo-draft-06.json). jsonschema's [iter_errors] runs the
    keywords registered in jsch_validators.py:17-51, in the order of the schema, as a generator: what comes after the first error is not run
    by check_schema. Simplifications: only the keywords the meta-schema uses; the messages of errors are left out; the ids are absolute;
    "additionalProperties" asks the type checker about the value only, not about its own parameter. *)
From Verif Require Import Base PyVal Cmp_Model.

(** schemas, with '$id', '$recursiveAnchor' and the other keywords in their order *)
Inductive ms := MBool (b : bool) | MObj (id : option string) (anchor : option bool) (kws : list mkw)
with mkw :=
| MRef (u : string) | MRecursive
| MAllOf (l : list ms) | MAnyOf (l : list ms)
| MProps (l : list (string * ms)) | MMore (s : ms)
| MItems (s : ms) | MMinItems (n : nat) | MUnique (b : bool) | MEnum (l : list pyval)
| MNote (name : string).                                       (* a keyword that is not registered, or "format" (no checker is given) *)

(** where in the value an error is *)
Inductive pstep := At (k : string) | Pos (i : nat).
(** what stops a generator: a type the type checker does not know, a document that is not there, the depth of calls *)
Inductive fault := UnknownType | NoDocument | TooDeep.
(** errors produced, one after the other, and what stops them *)
Definition out : Type := list (list pstep) * option fault.
Definition scopes : Type := list string.                       (* [resolver._scopes_stack], the current one first *)

Section Validator.
  (** [is_type(value, kind)]: None for a kind that is unknown (jsonschema raises UnknownType) *)
  Variable kinds : string -> pyval -> option bool.
  Variable docs : string -> option ms.                         (* [resolver.store] *)
  Variable uniq : list pyval -> bool.                          (* jsonschema [_utils.uniq] *)

  Fixpoint all {A} (f : A -> scopes -> out * scopes) (l : list A) (st : scopes) : out * scopes :=
    match l with
    | [] => (([], None), st)
    | x :: l' =>
        match f x st with
        | ((a, Some e), st1) => ((a, Some e), st1)
        | ((a, None), st1) => let '((b, e), st2) := all f l' st1 in ((a ++ b, e), st2)
        end
    end.
  (** [descend(value, schema, path=k)] *)
  Definition under (p : pstep) (r : out * scopes) : out * scopes := ((map (cons p) (fst (fst r)), snd (fst r)), snd r).
  (** jsonschema [anyOf]: the first that has no error *)
  Fixpoint any (errs : ms -> scopes -> out * scopes) (l : list ms) (st : scopes) : out * scopes :=
    match l with
    | [] => (([[]], None), st)
    | s :: l' =>
        match errs s st with
        | ((_, Some e), st1) => (([], Some e), st1)
        | (([], None), st1) => (([], None), st1)
        | ((_ :: _, None), st1) => any errs l' st1
        end
    end.
  (** a keyword that applies to values of one kind *)
  Definition for_kind (k : string) (v : pyval) (st : scopes) (r : out * scopes) : out * scopes :=
    match kinds k v with None => (([], Some UnknownType), st) | Some false => (([], None), st) | Some true => r end.
  Definition if_bad (b : bool) (st : scopes) : out * scopes := ((if b then [[]] else [], None), st).
  Definition members (v : pyval) : list (string * pyval) := match v with VDict d => d | _ => [] end.
  Definition items_of (v : pyval) : list pyval := match v with VList l | VTup l => l | _ => [] end.
  Fixpoint numbered {A} (i : nat) (l : list A) : list (nat * A) := match l with [] => [] | x :: l' => (i, x) :: numbered (S i) l' end.
  Definition declared (kws : list mkw) : list string := flat_map (fun k => match k with MProps l => map fst l | _ => [] end) kws.
  Definition anchored (s : ms) : bool := match s with MObj _ (Some b) _ => b | _ => true end.

  Section Keyword.
    Variable errs : ms -> pyval -> scopes -> out * scopes.     (* [validator.descend] *)
    Variable kws : list mkw.                                   (* the schema the keyword is in *)
    Definition keyword (v : pyval) (k : mkw) (st : scopes) : out * scopes :=
      match k with
      | MRef _ | MNote _ => (([], None), st)                   (* '$ref' is not registered: jsch_validators.py:17 *)
      | MRecursive =>                                          (* jsch_validators.py:54-72, for "#" *)
          match st with
          | [] => (([], Some NoDocument), st)
          | here :: _ =>
              match docs here with
              | None => (([], Some NoDocument), st)
              | Some s => let '(o, st2) := errs s v (if anchored s then here :: st else st) in (o, if anchored s then tl st2 else st2)
              end
          end
      | MAllOf l => all (fun s => errs s v) l st
      | MAnyOf l => any (fun s => errs s v) l st
      | MProps l => for_kind "object" v st (all (fun ps st => match dget (fst ps) (members v) with
                                                          | Some x => under (At (fst ps)) (errs (snd ps) x st)
                                                          | None => (([], None), st) end) l st)
      | MMore s => for_kind "object" v st (all (fun kx st => under (At (fst kx)) (errs s (snd kx) st))
                                               (filter (fun kx => negb (mem (fst kx) (declared kws))) (members v)) st)
      | MItems s => for_kind "array" v st (all (fun ix st => under (Pos (fst ix)) (errs s (snd ix) st)) (numbered 0 (items_of v)) st)
      | MMinItems n => for_kind "array" v st (if_bad (Nat.ltb (length (items_of v)) n) st)
      | MUnique b => if b then for_kind "array" v st (if_bad (negb (uniq (items_of v))) st) else (([], None), st)
      | MEnum l => if_bad (negb (existsb (fun e => val_eq v e) l)) st
      end.
  End Keyword.
  Definition refers (kws : list mkw) : list mkw := filter (fun k => match k with MRef _ => true | _ => false end) kws.
  (** jsonschema [iter_errors]; with a '$ref' the other keywords are not looked at; the scope of an '$id' is popped in a [finally] *)
  Fixpoint errors (fuel : nat) (s : ms) (v : pyval) (st : scopes) : out * scopes :=
    match fuel with
    | 0 => (([], Some TooDeep), st)
    | S f =>
        match s with
        | MBool true => (([], None), st)
        | MBool false => (([[]], None), st)
        | MObj id _ kws =>
            let '(o, st2) := all (keyword (errors f) kws v) (match refers kws with [] => kws | rs => rs end)
                                 (match id with Some u => u :: st | None => st end) in
            (o, match id with Some _ => tl st2 | None => st2 end)
        end
    end.

  Inductive verdict := Accepted | Refused (where_ : list pstep) | Failed (f : fault).
  (** type_builder.py:108-111: the first error is raised; closing the generator runs the [finally] clauses *)
  Definition check (meta : ms) (fuel : nat) (v : pyval) (st : scopes) : verdict * scopes :=
    let '((es, f), st') := errors fuel meta v st in
    (match es with p :: _ => Refused p | [] => match f with Some e => Failed e | None => Accepted end end, st').
  (** schemas checked one after the other, with the shared resolver *)
  Fixpoint checks (meta : ms) (fuel : nat) (vs : list pyval) (st : scopes) : list verdict * scopes :=
    match vs with
    | [] => ([], st)
    | v :: vs' => let '(r, st1) := check meta fuel v st in let '(rs, st2) := checks meta fuel vs' st1 in (r :: rs, st2)
    end.
End Validator.

(** ngoschema/schemas/ngo-draft-06.json *)
Local Open Scope string_scope. Local Open Scope list_scope.
Definition note (l : list string) : ms := MObj None None (map MNote l).
Definition refer (u : string) : ms := MObj None None [MRef u].
Definition draft : string := "https://json-schema.org/draft/2019-09/meta/".
Definition string_array : ms := refer (draft ++ "validation#/$defs/stringArray").
Definition complex_types : list string := ["importable"; "path"; "uri"; "date"; "time"; "datetime"; "foreignKey"; "canonicalName"].
Definition meta_props : list (string * ms) :=
  [("definitions", MObj None None [MNote "$comment"; MNote "type"; MMore (MObj None None [MRecursive]); MNote "default"]);
   ("dependencies", MObj None None [MNote "$comment"; MNote "type"; MMore (MObj None None [MAnyOf [MObj None None [MRecursive]; string_array]])]);
   ("readOnly", string_array); ("notSerialized", string_array); ("notValidated", string_array);
   ("wraps", note ["type"; "$comment"]);
   ("extends", MObj None None [MNote "type"; MItems (note ["type"; "format"]); MNote "$comment"]);
   ("abstract", note ["type"; "$comment"]); ("isPathDir", note ["type"; "$comment"]); ("isPathFile", note ["type"; "$comment"]);
   ("isPathExisting", note ["type"; "$comment"]);
   ("aliases", MObj None None [MNote "type"; MMore (note ["type"])]); ("negatedAliases", MObj None None [MNote "type"; MMore (note ["type"])]);
   ("complexTypes", MObj None None [MEnum (map VStr complex_types)]);
   ("type", MObj None None [MAnyOf [refer (draft ++ "validation#/$defs/simpleTypes");
      MObj None None [MNote "type"; MItems (MObj None None [MAnyOf [refer (draft ++ "validation#/$defs/simpleTypes"); refer "#/$defs/complexTypes"]]);
                      MMinItems 1; MUnique true];
      refer "#/$defs/complexTypes"]])].
Definition meta_uri : string := "https://numengo.org/ngoschema/draft-06".
Definition meta_schema : ms :=
  MObj (Some meta_uri) (Some true)
    [MNote "$schema"; MNote "title"; MNote "type"; MNote "$vocabulary";
     MAllOf (map (fun n => refer (draft ++ n)) ["core"; "applicator"; "validation"; "meta-data"; "format"; "content"]);
     MProps meta_props].
(** the document store: the other documents do not matter here (jsch_validators.py:119) *)
Definition meta_docs (u : string) : option ms := if eq_dec u meta_uri then Some meta_schema else None.
(** jsonschema's type checker for JSON values: "object" is dict, "array" is list *)
Definition json_kinds (k : string) (v : pyval) : option bool :=
  if eq_dec k "object" then Some (match v with VDict _ => true | _ => false end)
  else if eq_dec k "array" then Some (match v with VList _ => true | _ => false end) else None.
(** the type checker [create] gives when it is called without one (jsonschema 3): it knows no type (jsch_validators.py:111-115) *)
Definition no_kinds (k : string) (v : pyval) : option bool := None.
