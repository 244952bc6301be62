(** Inheritance of schemas: ObjectProtocol.build (ngoschema/protocols/object_protocol.py:513-797).
    Modelled: the attributes computed from the schema, the class attributes and the base classes (lines 541-592, 597,
    741-775). Not modelled: bases not ready yet (proxies), the filtering of bases that extend each other, relationships,
    method decoration, dependencies declared by decorators of getters, values taken from class attributes. *)
From Verif Require Export Base.

(** what one schema declares; [None] for a keyword that is absent. A property type is opaque ([nat]), with a flag saying
    whether it has a default. *)
Record schema := {
  sc_required : option (list string); sc_readonly : option (list string);
  sc_notser : option (list string); sc_notval : option (list string);
  sc_props : dict string (nat * bool);
  sc_deps : dict string (list string);
  sc_pks : list string;
  sc_aliases : dict string string; sc_negated : dict string string;
  (* class attributes _required, _readOnly, _notSerialized, _notValidated, _primaryKeys *)
  at_required : list string; at_readonly : list string; at_notser : list string; at_notval : list string;
  at_pks : option (list string)
}.

Record klass := {
  kl_required : list string; kl_readonly : list string; kl_notser : list string; kl_notval : list string;
  kl_props : dict string (nat * bool);
  kl_default : list string;
  kl_deps : dict string (list string);
  kl_pks : list string;
  kl_aliases : dict string string; kl_negated : dict string string;
  kl_allowed : list string
}.

Definition own (o : option (list string)) (attr : list string) : list string := match o with Some l => l | None => attr end.

(** [set().union(own, *bases)] (585-588) *)
Definition unions (own : list string) (bases : list (list string)) : list string := dedup (own ++ concat bases).

(** [dict(ChainMap(own, *bases))]: each key with the value of the first map having it (597, 742, 767-768) *)
Definition chain {V} (own : dict string V) (bases : list (dict string V)) : dict string V :=
  let maps := own :: bases in
  flat_map (fun k => match find (fun m => dmem k m) maps with
                     | Some m => match dget k m with Some v => [(k, v)] | None => [] end
                     | None => [] end) (dedup (flat_map dkeys maps)).

(** [dependencies[k].update(set(v))] *)
Definition add_deps (acc : dict string (list string)) (kv : string * list string) : dict string (list string) :=
  dset (fst kv) (dedup (match dget (fst kv) acc with Some s => s | None => [] end ++ snd kv)) acc.

(** 575-579 *)
Definition primary_keys (s : schema) (bases : list klass) : list string :=
  match (match at_pks s with Some l => l | None => sc_pks s end) with
  | [] => fold_left (fun acc b => acc ++ filter (fun k => negb (mem k acc)) (kl_pks b)) bases []
  | l => l
  end.

Definition identity_keys : string := "identityKeys"%string.

Definition build (s : schema) (bases : list klass) : klass :=
  let deps0 := fold_left add_deps (sc_deps s) [] in                                                 (* 565-567 *)
  let deps1 := fold_left (fun acc b => fold_left add_deps (kl_deps b) acc) bases deps0 in           (* 568-570 *)
  let pks := primary_keys s bases in
  let props := chain (sc_props s) (map kl_props bases) in
  let aliases := chain (sc_aliases s) (map kl_aliases bases) in
  let negated := chain (sc_negated s) (map kl_negated bases) in
  let ro := unions (own (sc_readonly s) (at_readonly s)) (map kl_readonly bases) in
  {| kl_required := unions (own (sc_required s) (at_required s)) (map kl_required bases);
     kl_readonly := ro;
     kl_notser := unions (own (sc_notser s) (at_notser s)) (map kl_notser bases);
     kl_notval := unions (own (sc_notval s) (at_notval s)) (map kl_notval bases);
     kl_props := props;
     kl_default := unions (map fst (filter (fun p => snd (snd p)) (sc_props s))) (map kl_default bases);   (* 589, 719-721 *)
     kl_deps := match pks with [] => deps1 | _ => dset identity_keys (dedup pks) deps1 end;         (* 580-581 *)
     kl_pks := pks;
     kl_aliases := aliases; kl_negated := negated;
     kl_allowed := filter (fun k => negb (mem k ro))                                                (* 769-770 *)
                     (dedup (dkeys props ++ dkeys aliases ++ dvals aliases ++ dkeys negated ++ dvals negated)) |}.

(** a class definition: its schema and its base classes, in order *)
Inductive cdef := CDef (s : schema) (bases : list cdef).
Fixpoint build_tree (t : cdef) : klass := match t with CDef s bs => build s (map build_tree bs) end.
