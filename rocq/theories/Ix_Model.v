(** The text, the canonical name and the identity keys of instances and entities: ngoschema/models/instances.py:26-45, 69-90, with
    the parts of ngoschema/protocols/collection_protocol.py:88-98, 118-137, 169-192 and object_protocol.py:66-109 they rest on.
    Simplifications: values are texts or None; evaluating a value is [ev], a function of the raw text alone, so an expression never
    changes by itself, and [None] is evaluated to None; only [identityKeys] and [canonicalName] depend on other properties, and none of
    those depends on a third one (chains of dependencies are in Inst_Model); primary keys are stored properties; a class takes no text of
    its own; what is read is declared; read-only properties other than [identityKeys], getters, setters and logging are left out. As the inputs recorded for
    [identityKeys] and [canonicalName] are the values of what they depend on and a change of these forgets the value (92-98),
    [_is_outdated] (190-192) comes to the value being forgotten. *)
From Verif Require Export Base.
From Coq Require Export Ascii String List.
Export ListNotations.
Open Scope string_scope.
Open Scope list_scope.

Notation str := (list ascii).
Notation chars := list_ascii_of_string.

Record node := {
  x_entity : bool;                              (* Entity, or Instance without being one *)
  x_lazy : bool;                                (* _lazyLoading *)
  x_qual : str;                                 (* qualname() *)
  x_parent : option nat;                        (* _parentInstance, set by contexts/instance_context.py:11-17 *)
  x_required : list string;                     (* _required, in the order the set is iterated *)
  x_pks : list string;                          (* _primaryKeys of the instance: instances.py:70 *)
  x_kdeps : list string;                        (* _dependencies['identityKeys'] of the class: object_protocol.py:580-581 *)
  x_cdeps : list string;                        (* _dependencies['canonicalName'] of the class: instances.py:33 *)
  x_data : string -> option str;                (* _data *)
  x_val : string -> option str;                 (* _dataValidated *)
  x_ids : option (list (option str));           (* _dataValidated['identityKeys'] *)
  x_keys : option (list (option str));          (* the attribute _identityKeys *)
  x_str : option str                            (* _str *)
}.

(** instances by number *)
Notation insts := (nat -> node).

Definition upd (f : string -> option str) (k : string) (v : option str) : string -> option str := fun k' => if eq_dec k' k then v else f k'.
Definition put (st : insts) (n : nat) (nd : node) : insts := fun m => if Nat.eqb m n then nd else st m.

Definition with_data (f : string -> option str) (nd : node) : node :=
  {| x_entity := x_entity nd; x_lazy := x_lazy nd; x_qual := x_qual nd; x_parent := x_parent nd; x_required := x_required nd; x_pks := x_pks nd;
     x_kdeps := x_kdeps nd; x_cdeps := x_cdeps nd; x_data := f; x_val := x_val nd; x_ids := x_ids nd; x_keys := x_keys nd; x_str := x_str nd |}.
Definition with_val (f : string -> option str) (nd : node) : node :=
  {| x_entity := x_entity nd; x_lazy := x_lazy nd; x_qual := x_qual nd; x_parent := x_parent nd; x_required := x_required nd; x_pks := x_pks nd;
     x_kdeps := x_kdeps nd; x_cdeps := x_cdeps nd; x_data := x_data nd; x_val := f; x_ids := x_ids nd; x_keys := x_keys nd; x_str := x_str nd |}.
Definition with_ids (i : option (list (option str))) (nd : node) : node :=
  {| x_entity := x_entity nd; x_lazy := x_lazy nd; x_qual := x_qual nd; x_parent := x_parent nd; x_required := x_required nd; x_pks := x_pks nd;
     x_kdeps := x_kdeps nd; x_cdeps := x_cdeps nd; x_data := x_data nd; x_val := x_val nd; x_ids := i; x_keys := x_keys nd; x_str := x_str nd |}.
Definition with_keys (i : option (list (option str))) (nd : node) : node :=
  {| x_entity := x_entity nd; x_lazy := x_lazy nd; x_qual := x_qual nd; x_parent := x_parent nd; x_required := x_required nd; x_pks := x_pks nd;
     x_kdeps := x_kdeps nd; x_cdeps := x_cdeps nd; x_data := x_data nd; x_val := x_val nd; x_ids := x_ids nd; x_keys := i; x_str := x_str nd |}.
Definition with_str (t : option str) (nd : node) : node :=
  {| x_entity := x_entity nd; x_lazy := x_lazy nd; x_qual := x_qual nd; x_parent := x_parent nd; x_required := x_required nd; x_pks := x_pks nd;
     x_kdeps := x_kdeps nd; x_cdeps := x_cdeps nd; x_data := x_data nd; x_val := x_val nd; x_ids := x_ids nd; x_keys := x_keys nd; x_str := t |}.

Definition k_name : string := "name".
Definition k_cname : string := "canonicalName".
Definition k_ids : string := "identityKeys".

(** str(v), and [a or b] on texts *)
Definition shown (v : option str) : str := match v with Some t => t | None => chars "None" end.
Definition py_or (a b : option str) : option str := match a with Some (_ :: _) => a | _ => b end.

(** [sep.join(l)] *)
Fixpoint joined (sep : str) (l : list str) : str :=
  match l with [] => [] | [x] => x | x :: r => x ++ sep ++ joined sep r end.

Section Instances.
  Variable ev : str -> str.                     (* the value a raw text evaluates to *)
  Variable is_expr : str -> bool.               (* Pattern.check or Expr.check *)

  (** _items_touch: collection_protocol.py:92-98 with _touch (88-90) *)
  Definition touch (k : string) (nd : node) : node :=
    let nd1 := with_val (upd (x_val nd) k None) (with_str None nd) in
    let nd2 := if mem k (x_cdeps nd) then with_val (upd (x_val nd1) k_cname None) nd1 else nd1 in
    if mem k (x_kdeps nd) then with_ids None nd2 else nd2.

  (** _set_data (169-178), for a property of a primitive type *)
  Definition set_data (k : string) (v : option str) (nd : node) : node :=
    let nd1 := if eq_dec v (x_data nd k) then nd else touch k nd in
    with_data (upd (x_data nd1) k v) nd1.

  (** _items_evaluate then _set_dataValidated (118-137, 180-188) *)
  Definition evaluate (k : string) (nd : node) : node :=
    match x_data nd k with
    | None => nd
    | Some r => with_val (upd (x_val nd) k (Some (ev r))) (with_data (upd (x_data nd) k (Some (if is_expr r then r else ev r))) nd)
    end.

  (** object_protocol.py:93-104; [identityKeys] is read-only (97) *)
  Definition set_item (k : string) (v : option str) (nd : node) : node :=
    if eq_dec k k_ids then nd
    else let nd1 := set_data k v nd in if x_lazy nd then nd1 else evaluate k nd1.

  (** object_protocol.py:66-86 for a property without a getter *)
  Definition read_item (k : string) (nd : node) : option str * node :=
    let nd1 := match x_val nd k with None => evaluate k nd | Some _ => nd end in (x_val nd1 k, nd1).

  Fixpoint read_items (ks : list string) (nd : node) : list (option str) * node :=
    match ks with
    | [] => ([], nd)
    | k :: r => let q := read_item k nd in let q' := read_items r (snd q) in (fst q :: fst q', snd q')
    end.

  (** reading [identityKeys]: object_protocol.py:66-86 with the getter of instances.py:88-90; [_set_data] touches what is no primitive *)
  Definition read_ids (nd : node) : option (list (option str)) * node :=
    let nd0 := snd (read_items (x_kdeps nd) nd) in
    match x_ids nd0 with
    | Some l => (Some l, nd0)
    | None => let q := read_items (x_pks nd0) nd0 in
              (Some (fst q), with_ids (Some (fst q)) (with_str None (with_keys (Some (fst q)) (snd q))))
    end.

  (** [_canonicalName] (instances.py:40-45); the fuel is more than the depth when parents come before their children *)
  Definition own_name (nd : node) : option str := py_or (x_val nd k_name) (x_data nd k_name).
  Fixpoint cname_of (fuel : nat) (st : insts) (n : nat) : option str :=
    match fuel with
    | 0 => None
    | S f => match x_parent (st n) with
             | None => own_name (st n)
             | Some p => Some (shown (cname_of f st p) ++ chars "." ++ shown (own_name (st n)))
             end
    end.

  (** reading [canonicalName]: object_protocol.py:66-86 with the getter of instances.py:33-35 *)
  Definition read_cname (n : nat) (st : insts) : option str * insts :=
    let nd0 := snd (read_items (x_cdeps (st n)) (st n)) in
    let st0 := put st n nd0 in
    match x_val nd0 k_cname with
    | Some v => (Some v, st0)
    | None => let nd1 := evaluate k_cname (set_data k_cname (cname_of (S n) st0 n) nd0) in (x_val nd1 k_cname, put st n nd1)
    end.

  (** Instance.__str__ (instances.py:26-31) *)
  Definition instance_text (n : nat) (st : insts) : str :=
    let nd := st n in
    let cn := cname_of (S n) st n in
    let a := match cn with Some (_ :: _) => [shown cn] | _ => [] end
             ++ map (fun k => chars k ++ chars "=" ++ shown (py_or (x_val nd k) (x_data nd k))) (x_required nd) in
    chars "<" ++ x_qual nd ++ chars " " ++ joined (chars " ") a ++ chars ">".

  (** Entity.__str__ (instances.py:79-83) *)
  Definition entity_text (nd : node) : res str :=
    match x_keys nd with
    | None => Err TypeError
    | Some ks => Ok (chars "<" ++ x_qual nd ++ chars " " ++ joined (chars ", ") (map shown ks) ++ chars ">")
    end.

  Definition to_str (n : nat) (st : insts) : res str * insts :=
    match x_str (st n) with
    | Some t => (Ok t, st)
    | None => match (if x_entity (st n) then entity_text (st n) else Ok (instance_text n st)) with
              | Ok t => (Ok t, put st n (with_str (Some t) (st n)))
              | Err e => (Err e, st)
              end
    end.

  Inductive op := SetItem (n : nat) (k : string) (v : option str) | ReadItem (n : nat) (k : string) | ReadIds (n : nat)
                | ReadCname (n : nat) | AskText (n : nat).
  Definition step (st : insts) (o : op) : insts :=
    match o with
    | SetItem n k v => put st n (set_item k v (st n))
    | ReadItem n k => put st n (snd (read_item k (st n)))
    | ReadIds n => put st n (snd (read_ids (st n)))
    | ReadCname n => snd (read_cname n st)
    | AskText n => snd (to_str n st)
    end.

  (** the end of Entity.__init__ (instances.py:76-77) *)
  Definition born (st : insts) : insts := fun n => if x_entity (st n) then snd (read_ids (st n)) else st n.
  Definition run (st : insts) (ops : list op) : insts := fold_left step ops (born st).
End Instances.
