(** ngoschema/managers/type_builder.py: TypeBuilder.build 65-98, load 100-106, schema_mro 113-122, expand 124-157;
    protocols/type_proxy.py: TypeProxy.build 11-28, proxy_type 33-36; protocols/type_protocol.py: extend_type 148-152,
    SchemaMetaclass.__new__ 167-181. *)
From Verif Require Export Base Uri_Model.
Local Open Scope list_scope.

Notation uri := (list ascii).

(** A schema as seen by the builder: only the sub-schemas and references that are followed, in the order in which they are.
    [typed]: the keyword 'type' is present (and hashable). A boolean schema; a schema with '$ref' and, when other keywords
    are beside it, the references of its 'extends'; any other schema.
    Simplification: the keywords that follow no reference are dropped. *)
Inductive sch :=
| SBool (b : bool)
| SRef (typed : bool) (ref : uri) (rest : option (list uri))
| SNode (typed : bool) (steps : list step)
with step :=
| LoadRef (u : uri)                   (* load(scope(u, id)): 'extends', 'foreignSchema' *)
| LoadDef (suffix : uri)              (* load(f'{id}/$defs/{dn}') *)
| Sub (suffix : uri) (s : sch).       (* build(f'{id}/properties/{k}', s), '/patternProperties/', '/additionalProperties', '/items' *)

(** A Python object made by the builder; [n] is its identity. A class keeps the types it was made from, in order. *)
Inductive cls :=
| Class (n : nat) (id : uri) (parts : list cls)
| Proxy (n : nat) (id : uri)
| Const (n : nat) (b : bool).

(** _registry, _on_construction, and the number of objects made so far *)
Record tb := { reg : dict uri cls; onc : dict uri sch; made : nat }.

Definition is_typed (s : sch) : bool := match s with SBool _ => false | SRef t _ _ => t | SNode t _ => t end.

(** type_proxy.py:12-28: [sch['type']] raises KeyError when the schema under construction has no 'type' *)
Definition proxy (u : uri) (st : tb) : res cls * tb :=
  match dget u (onc st) with
  | None => (Err KeyError, st)
  | Some s => if is_typed s
              then (Ok (Proxy (made st) u), {| reg := reg st; onc := onc st; made := S (made st) |})
              else (Err KeyError, st)
  end.

Definition set_reg (u : uri) (c : cls) (st : tb) : tb := {| reg := dset u c (reg st); onc := onc st; made := made st |}.
Definition mark (u : uri) (s : sch) (st : tb) : tb := {| reg := reg st; onc := dset u s (onc st); made := made st |}.
Definition unmark (u : uri) (st : tb) : tb := {| reg := reg st; onc := ddel u (onc st); made := made st |}.

Section TB.
  Variable resolve : uri -> res sch.                   (* resolve_uri *)
  Variable fails : uri -> list cls -> option exn.      (* whether making the class itself raises, and what *)
  Variable underscore : uri -> uri.                    (* inflection.underscore *)

  (** 100-106, over a function [b] for [self.build] *)
  Definition load_with (b : uri -> option sch -> tb -> res cls * tb) (u : uri) (st : tb) : res cls * tb :=
    match dget u (reg st) with
    | Some c => (Ok c, st)
    | None => if dmem u (onc st) then proxy u st
              else match b u None st with
                   | (Ok c, st') => (Ok c, set_reg u c st')
                   | (Err e, st') => (Err e, st')
                   end
    end.

  Definition one_step (b : uri -> option sch -> tb -> res cls * tb) (id : uri) (x : step) (st : tb) : res cls * tb :=
    match x with
    | LoadRef u => load_with b (scope u id) st
    | LoadDef suffix => load_with b (id ++ suffix) st
    | Sub suffix s => b (id ++ suffix) (Some s) st
    end.
  Fixpoint steps_with (b : uri -> option sch -> tb -> res cls * tb) (id : uri) (l : list step) (st : tb) : res (list cls) * tb :=
    match l with
    | [] => (Ok [], st)
    | x :: l' =>
        match one_step b id x st with
        | (Ok c, st1) => match steps_with b id l' st1 with
                         | (Ok cs, st2) => (Ok (c :: cs), st2)
                         | (Err e, st2) => (Err e, st2)
                         end
        | (Err e, st1) => (Err e, st1)
        end
    end.

  (** [type(clsname, bases, attrs)]: a new object *)
  Definition make (id : uri) (parts : list cls) (st : tb) : res cls * tb :=
    match fails id parts with
    | Some e => (Err e, st)
    | None => (Ok (Class (made st) id parts), {| reg := reg st; onc := onc st; made := S (made st) |})
    end.

  (** 83-94: the class for a schema that is not boolean *)
  Definition construct (b : uri -> option sch -> tb -> res cls * tb) (id : uri) (s : sch) (st : tb) : res cls * tb :=
    match s with
    | SBool _ => (Err TypeError, st)
    | SRef _ ref rest =>
        match load_with b (scope ref id) st with
        | (Err e, st1) => (Err e, st1)
        | (Ok c, st1) =>
            match rest with
            | None => (Ok c, st1)
            | Some ext =>                                            (* extend_type, type_protocol.py:148-152 *)
                match steps_with b id (map LoadRef ext) st1 with
                | (Err e, st2) => (Err e, st2)
                | (Ok cs, st2) =>
                    match make id (c :: cs) st2 with
                    | (Err e, st3) => (Err e, st3)
                    | (Ok c', st3) => (Ok c', set_reg (underscore id) c' st3)
                    end
                end
            end
        end
    | SNode _ l =>
        match steps_with b id l st with
        | (Err e, st1) => (Err e, st1)
        | (Ok cs, st1) => make id cs st1
        end
    end.

  (** 65-98; fuel bounds the depth of the recursion. An exception leaves [id] marked: line 95 is not reached.
      Not modelled here: NamespaceManager.register_ns (97), see Ns_Model. *)
  Fixpoint build (n : nat) (id : uri) (schema : option sch) (st : tb) : res cls * tb :=
    match n with
    | 0 => (Err OutOfFuel, st)
    | S n' =>
        match dget id (reg st) with
        | Some c => (Ok c, st)
        | None =>
            if dmem id (onc st) then proxy id st
            else match (match schema with Some s => Ok s | None => resolve id end) with
                 | Err e => (Err e, st)
                 | Ok (SBool b) => (Ok (Const (made st) b), {| reg := reg st; onc := onc st; made := S (made st) |})
                 | Ok s =>
                     match construct (build n') id s (mark id s st) with
                     | (Err e, st1) => (Err e, st1)
                     | (Ok c, st1) => (Ok c, set_reg id c (unmark id st1))
                     end
                 end
        end
    end.
  Definition load (n : nat) (u : uri) (st : tb) : res cls * tb := load_with (build n) u st.

  (** what a program may do: build, load, or define a class with the metaclass (type_protocol.py:177-181) *)
  Inductive op := OBuild (id : uri) (s : option sch) | OLoad (id : uri) | ODefine (id : uri) (s : sch).
  Definition tb_step (n : nat) (o : op) (st : tb) : res cls * tb :=
    match o with
    | OBuild id s => build n id s st
    | OLoad id => load n id st
    | ODefine id (SBool _) => (Err AttributeError, st)   (* schema.setdefault (175) *)
    | ODefine id s => build n id (Some s) {| reg := ddel id (reg st); onc := onc st; made := made st |}
    end.
  Fixpoint tb_run (n : nat) (os : list op) (st : tb) : tb :=
    match os with [] => st | o :: os' => tb_run n os' (snd (tb_step n o st)) end.
  Definition tb0 : tb := {| reg := []; onc := []; made := 0 |}.

  (** type_proxy.py:33-36: the class a proxy stands for *)
  Definition proxy_type (u : uri) (st : tb) : option cls := dget u (reg st).
End TB.

(** * schema_mro (113-122): [ext u] gives the 'extends' of the schema at [u] *)
Section Mro.
  Variable ext : uri -> res (list uri).

  (** the inner generator 115-121, drained; fuel bounds the depth *)
  Fixpoint mro_walk (n : nat) (id : uri) (es : list uri) : res (list uri) :=
    match n with
    | 0 => Err RecursionError
    | S n' =>
        (fix each (es : list uri) : res (list uri) :=
           match es with
           | [] => Ok []
           | e :: es' =>
               let i := scope e id in
               do x <- ext i;
               do sub <- mro_walk n' i x;
               do rest <- each es';
               Ok (i :: sub ++ rest)
           end) es
    end.
  (** 122: [OrderedDict] keeps the first position of a key (its value is the schema at that uri) *)
  Definition schema_mro (n : nat) (id : uri) (es : list uri) : res (list uri) := do l <- mro_walk n id es; Ok (dedup l).
End Mro.

(** * expand (124-157) *)
Record xschema := { x_extends : list uri; x_required : list string; x_readonly : list string; x_notser : list string;
                    x_props : dict string nat; x_patterns : dict string nat }.
(** 138-157 given the result of schema_mro: the schemas of the ancestors, in order. Not modelled: the scoping of '$ref's in
    the ancestors' schemas (135-137). [set(...)] is [dedup]; the chain maps are their first-definition-wins content. *)
Definition chain_first (own : dict string nat) (others : list (dict string nat)) (k : string) : option nat :=
  match find (fun m => dmem k m) (own :: others) with Some m => dget k m | None => None end.
Definition expand_body (s : xschema) (mro : dict uri xschema) :
  list uri * list string * list string * list string * (string -> option nat) * (string -> option nat) :=
  (dkeys mro,
   dedup (x_required s ++ flat_map x_required (dvals mro)),
   dedup (x_readonly s ++ flat_map x_readonly (dvals mro)),
   dedup (x_notser s ++ flat_map x_notser (dvals mro)),
   chain_first (x_props s) (map x_props (dvals mro)),
   chain_first (x_patterns s) (map x_patterns (dvals mro))).

(** A method call passes the object as first argument. [schema_mro] is declared with the parameters [(id, schema=None)] (113),
    without [self]: called as [self.schema_mro(id, schema)] it gets three arguments for at most two (134). *)
Definition arity_ok (least most given : nat) : bool := Nat.leb least given && Nat.leb given most.
Definition call_method {A} (least most : nat) (args : nat) (body : res A) : res A :=
  if arity_ok least most (S args) then body else Err TypeError.
Definition expand (n : nat) (look : uri -> res xschema) (id : uri) (schema : option xschema) :=
  do s <- match schema with Some s => Ok s | None => look id end;
  do l <- call_method 1 2 2 (schema_mro (fun u => do x <- look u; Ok (x_extends x)) n id (x_extends s));
  do m <- (fix vals (l : list uri) : res (dict uri xschema) :=
             match l with [] => Ok [] | u :: l' => do x <- look u; do m <- vals l'; Ok ((u, x) :: m) end) l;
  Ok (expand_body s m).
