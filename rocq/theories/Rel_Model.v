(** ngoschema/managers/relationship_builder.py: RelationshipDescriptor 15-31, RelationshipBuilder.build 49-89, load 92-96;
    managers/type_builder.py: build 65-98, load 100-106 for classes with relationships;
    protocols/object_protocol.py: ObjectProtocol.build 583-585 and 603-619 (relationships of a class);
    protocols/type_protocol.py: TypeProtocol.build 52-66 (the class a foreign key leads to). *)
From Verif Require Export Base Uri_Model Bracket_Model.
Local Open Scope char_scope. Local Open Scope list_scope.

Notation name := (list ascii).
Definition txt (s : string) : list ascii := list_ascii_of_string s.

(** an entry of 'backPopulates': its 'foreignSchema', and what [str] makes of the whole entry (83: [bp] is the entry,
    not its name) *)
Record back := { b_foreign : option name; b_text : name }.
(** the schema of a relationship. Simplification: 'ordering' and 'reverse' are dropped, they are copied as they are;
    a 'backPopulates' that is not a mapping counts as none (80) *)
Record rsch := { r_foreign : option name; r_card : option name; r_keys : list name; r_back : list (name * back) }.
(** the schema of a class: 'primaryKeys', the properties with a 'foreignKey' (its 'foreignSchema' and the 'backPopulates'
    beside it), 'relationships'. Simplification: other properties, bases and definitions are dropped (TB_Model) *)
Record tsch := { s_pk : list name; s_fks : list (name * (option name * list (name * rsch))); s_rels : list (name * rsch) }.

(** the class a relationship leads to: a finished class (with its identity) or a proxy *)
Inductive fref := Ready (u : name) (n : nat) | Under (u : name).
(** a relationship class *)
Record rcls := { rc_obj : nat; rc_id : name; rc_schema : name; rc_class : fref; rc_card : name; rc_keys : list name; rc_o2m : bool }.
(** a class: _primaryKeys, _localRelationships, _relationshipsDescriptor (the name under which each descriptor reads) *)
Record tcls := { t_obj : nat; t_id : name; t_pk : list name; t_rels : dict name rcls; t_desc : dict name name }.
(** type_builder._registry, type_builder._on_construction, relationship_builder._registry, number of objects made *)
Record rst := { types : dict name tcls; busy : list name; rels : dict name rcls; made : nat }.

Inductive fclass := FReady (c : tcls) | FProxy (u : name).
Definition ref_of (c : fclass) : fref := match c with FReady c => Ready (t_id c) (t_obj c) | FProxy u => Under u end.

(** f'{id}/relationships/{k}' (object_protocol.py:603, relationship_builder.py:83) *)
Definition rid (id k : name) : name := id ++ txt "/relationships/" ++ k.
(** f'{id}/properties/{k}' (object_protocol.py:585) *)
Definition pid (id k : name) : name := id ++ txt "/properties/" ++ k.
(** id.split('/relationships')[0] (84) *)
Fixpoint before (p s : list ascii) : list ascii :=
  if is_prefix p s then [] else match s with [] => [] | c :: s' => c :: before p s' end.
Definition owner (id : name) : name := before (txt "/relationships") id.

Definition reg_rel (id : name) (c : rcls) (st : rst) : rst :=
  {| types := types st; busy := busy st; rels := dset id c (rels st); made := made st |}.
Definition mark (id : name) (st : rst) : rst :=
  {| types := types st; busy := id :: busy st; rels := rels st; made := made st |}.
Definition finish (id : name) (c : tcls) (st : rst) : rst :=
  {| types := dset id c (types st); busy := remove (eq_dec (A := name)) id (busy st); rels := rels st; made := made st |}.
Definition tick (st : rst) : rst := {| types := types st; busy := busy st; rels := rels st; made := S (made st) |}.

Section Rel.
  Variable docs : dict name tsch.                       (* resolve_uri, on classes *)
  Variable rdocs : name -> res rsch.                    (* resolve_uri, on relationships *)
  Variable fails : name -> option exn.                  (* whether ObjectProtocol.build (77) or type() raises *)

  (** 60-77: the class of a relationship, before it is registered. [ld] is type_builder.load.
      Simplification: get_id_cname (51) does not raise; [attrs] is empty, as in the two calls there are. *)
  Definition new_rel (ld : name -> rst -> res fclass * rst) (id : name) (r : rsch) (st : rst) : res rcls * rst :=
    match r_foreign r with
    | None => (Err TypeError, st)                       (* scope(None, id): '#' in None *)
    | Some f =>
        let fs := scope f id in
        match ld fs st with
        | (Err e, st1) => (Err e, st1)
        | (Ok fc, st1) =>
            match fails id with
            | Some e => (Err e, st1)
            | None =>
                let card := match r_card r with Some c => c | None => txt "OneToOne" end in
                (Ok {| rc_obj := made st1; rc_id := id; rc_schema := fs; rc_class := ref_of fc; rc_card := card;
                       rc_keys := match r_keys r, fc with [], FReady c => t_pk c | ks, _ => ks end;
                       rc_o2m := negb (contains_sub (txt "OneTo") card) |}, tick st1)
            end
        end
    end.

  (** 49-89 for a schema without 'backPopulates' *)
  Definition build_plain (ld : name -> rst -> res fclass * rst) (id : name) (r : rsch) (st : rst) : res rcls * rst :=
    match dget id (rels st) with
    | Some c => (Ok c, st)
    | None => match new_rel ld id r st with
              | (Ok c, st1) => (Ok c, reg_rel id c st1)
              | (Err e, st1) => (Err e, st1)
              end
    end.

  (** 79-86. The right-hand side of 86 is evaluated first: the back relationship is built and registered; the entry is
      then used as a key, and a dict is not hashable. *)
  Fixpoint back_populate (ld : name -> rst -> res fclass * rst) (id fs : name) (l : list (name * back)) (st : rst) : res unit * rst :=
    match l with
    | [] => (Ok tt, st)
    | (_, b) :: l' =>
        match b_foreign b with
        | None => (Err KeyError, st)
        | Some f =>
            match ld (scope f id) st with
            | (Err e, st1) => (Err e, st1)
            | (Ok (FProxy _), st1) => back_populate ld id fs l' st1
            | (Ok (FReady _), st1) =>
                match build_plain ld (rid fs (b_text b)) {| r_foreign := Some (owner id); r_card := None; r_keys := []; r_back := [] |} st1 with
                | (Err e, st2) => (Err e, st2)
                | (Ok _, st2) => (Err TypeError, st2)
                end
            end
        end
    end.

  (** 49-89 *)
  Definition build_rel (ld : name -> rst -> res fclass * rst) (id : name) (r : rsch) (st : rst) : res rcls * rst :=
    match dget id (rels st) with
    | Some c => (Ok c, st)
    | None =>
        match new_rel ld id r st with
        | (Err e, st1) => (Err e, st1)
        | (Ok c, st1) =>
            match back_populate ld id (rc_schema c) (r_back r) st1 with
            | (Err e, st2) => (Err e, st2)
            | (Ok _, st2) => (Ok c, reg_rel id c st2)
            end
        end
    end.

  (** type_protocol.py:52-66: when the load raises, [fc] is not bound at 66 *)
  Fixpoint load_keys (ld : name -> rst -> res fclass * rst) (id : name) (l : list (name * (option name * list (name * rsch)))) (st : rst)
    : res unit * rst :=
    match l with
    | [] => (Ok tt, st)
    | (k, (f, _)) :: l' =>
        match f with
        | None => (Err TypeError, st)
        | Some f =>
            match ld (scope f (pid id k)) st with
            | (Err _, st1) => (Err UnboundLocalError, st1)
            | (Ok _, st1) => load_keys ld id l' st1
            end
        end
    end.

  (** object_protocol.py:603-604 and 616-617: each relationship is built and listed under its name *)
  Fixpoint add_rels (ld : name -> rst -> res fclass * rst) (id : name) (l : list (name * rsch)) (d : dict name rcls) (st : rst)
    : res (dict name rcls) * rst :=
    match l with
    | [] => (Ok d, st)
    | (k, r) :: l' =>
        match build_rel ld (rid id k) r st with
        | (Err e, st1) => (Err e, st1)
        | (Ok c, st1) => add_rels ld id l' (dset k c d) st1
        end
    end.

  (** object_protocol.py:607-615: what the foreign keys of the properties add; without 'backPopulates' a pointer *)
  Definition pointers (l : list (name * (option name * list (name * rsch)))) : list (name * rsch) :=
    flat_map (fun p => match snd (snd p) with
                       | [] => [(fst p ++ txt "_ptr", {| r_foreign := fst (snd p); r_card := None; r_keys := [fst p]; r_back := [] |})]
                       | bps => bps
                       end) l.

  (** ObjectProtocol.build, what concerns relationships: the properties' types, the relationships, the pointers *)
  Definition make_class (ld : name -> rst -> res fclass * rst) (id : name) (t : tsch) (st : rst) : res tcls * rst :=
    match load_keys ld id (s_fks t) st with
    | (Err e, st1) => (Err e, st1)
    | (Ok _, st1) =>
        match add_rels ld id (s_rels t ++ pointers (s_fks t)) [] st1 with
        | (Err e, st2) => (Err e, st2)
        | (Ok d, st2) =>
            match fails id with
            | Some e => (Err e, st2)
            | None => (Ok {| t_obj := made st2; t_id := id; t_pk := s_pk t; t_rels := d;
                             t_desc := fold_left (fun acc p => dset (fst p) (fst p) acc) (pointers (s_fks t)) [] |}, tick st2)
            end
        end
    end.

  (** TypeBuilder.load / build: an exception leaves the class marked as under construction *)
  Fixpoint load (n : nat) (u : name) (st : rst) : res fclass * rst :=
    match n with
    | 0 => (Err OutOfFuel, st)
    | S n' =>
        match dget u (types st) with
        | Some c => (Ok (FReady c), st)
        | None =>
            if mem u (busy st) then (Ok (FProxy u), st)
            else match dget u docs with
                 | None => (Err InvalidValue, st)
                 | Some t =>
                     match make_class (load n') u t (mark u st) with
                     | (Err e, st1) => (Err e, st1)
                     | (Ok c, st1) => (Ok (FReady c), finish u c st1)
                     end
                 end
        end
    end.

  (** 92-96 *)
  Definition load_rel (n : nat) (id : name) (st : rst) : res rcls * rst :=
    match dget id (rels st) with
    | Some c => (Ok c, st)
    | None => match rdocs id with
              | Err e => (Err e, st)
              | Ok r => match build_rel (load n) id r st with
                        | (Ok c, st1) => (Ok c, reg_rel id c st1)
                        | (Err e, st1) => (Err e, st1)
                        end
              end
    end.

  (** what a program may do: load classes, one after the other *)
  Fixpoint loads (n : nat) (us : list name) (st : rst) : rst :=
    match us with [] => st | u :: us' => loads n us' (snd (load n u st)) end.
  Definition rst0 : rst := {| types := []; busy := []; rels := []; made := 0 |}.
End Rel.

(** RelationshipDescriptor.__get__ 21-26, __set__ 28-30: [get], [put] are obj[..], [find] resolves a key in the session *)
Definition rd_get {O K V} (get : O -> name -> res K) (find : K -> res V) (pname : name) (o : O) : res V :=
  do k <- get o pname; find k.
Definition rd_set {O K V} (put : O -> name -> K -> O) (ident : V -> K) (pname : name) (v : V) (o : O) : O := put o pname (ident v).
