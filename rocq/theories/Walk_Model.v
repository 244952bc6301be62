(** Walking through nested collections, ngoschema/utils/utils.py:414-436 [apply_through_collection], and its use to make
    the references of a schema absolute, ngoschema/managers/type_builder.py:125-131 [scope_refs]. *)
From Verif Require Export Base Ns_Model Uri_Model.
Local Open Scope char_scope. Local Open Scope list_scope.

(** Nested dictionaries and lists; [JAtom] is a number, boolean or None. Simplification: no container occurs twice. *)
Inductive jv := JStr (s : str) | JAtom (n : nat) | JMap (d : list (str * jv)) | JList (l : list jv).
Inductive pos := PKey (k : str) | PIdx (i : nat).

Definition jget (c : jv) (p : pos) : option jv :=
  match c, p with JMap d, PKey k => dget k d | JList l, PIdx i => nth_error l i | _, _ => None end.
Fixpoint lput {A} (l : list A) (i : nat) (x : A) : list A :=
  match l, i with [], _ => [] | _ :: l', 0 => x :: l' | y :: l', S i' => y :: lput l' i' x end.
Definition jput (c : jv) (p : pos) (v : jv) : jv :=
  match c, p with JMap d, PKey k => JMap (dset k v d) | JList l, PIdx i => JList (lput l i v) | _, _ => c end.

Section Walk.
  (** what the function given makes of the collection, which it changes in place *)
  Variable func : nat -> jv -> pos -> res jv.
  (** utils.py:430-436: the value found after calling the function is walked through, if it is a dictionary or a list *)
  Definition member (rec : jv -> res jv) (c : jv) (p : pos) : res jv :=
    match jget c p with
    | Some (JMap d) => do v' <- rec (JMap d); Ok (jput c p v')
    | Some (JList l) => do v' <- rec (JList l); Ok (jput c p v')
    | _ => Ok c
    end.
  (** 428: the keys are listed before the first call *)
  Fixpoint over_keys (act : jv -> pos -> res jv) (ks : list str) (c : jv) : res jv :=
    match ks with [] => Ok c | k :: ks' => do c1 <- act c (PKey k); over_keys act ks' c1 end.
  (** ... but a list is iterated over as it changes *)
  Fixpoint over_items (act : jv -> pos -> res jv) (n i : nat) (c : jv) : res jv :=
    match n with
    | 0 => Err OutOfFuel
    | S n' => match jget c (PIdx i) with Some _ => do c1 <- act c (PIdx i); over_items act n' (S i) c1 | None => Ok c end
    end.
  Fixpoint walk (fuel level : nat) (c : jv) : res jv :=
    match fuel with
    | 0 => Err OutOfFuel
    | S f =>
        let act := fun c p => do c1 <- func level c p; member (walk f (S level)) c1 p in
        match c with
        | JMap d => over_keys act (dkeys d) c
        | JList _ => over_items act f 0 c
        | _ => Ok c
        end
    end.
End Walk.
(** a function that replaces each value by another *)
Definition replacing (g : nat -> pos -> jv -> res jv) (level : nat) (c : jv) (p : pos) : res jv :=
  match jget c p with Some v => do v' <- g level p v; Ok (jput c p v') | None => Err KeyError end.

(** type_builder.py:126-130 [_scope_refs]: only values of dictionaries; [scope] (uri_resolver.py:208-209) of something
    that is no string: '#' is looked for, then [split] *)
Definition scope_ref (id : str) (level : nat) (p : pos) (v : jv) : res jv :=
  match p, v with
  | PKey _, JMap d =>
      match dget (chars "$ref") d with
      | Some (JStr s) => Ok (JMap (dset (chars "$ref") (JStr (scope s id)) d))
      | Some (JAtom _) => Err TypeError
      | Some (JMap e) => if dmem ["#"] e then Err AttributeError else Ok v
      | Some (JList xs) => if existsb (fun x => match x with JStr s => beq s ["#"] | _ => false end) xs then Err AttributeError else Ok v
      | None => Ok v
      end
  | _, _ => Ok v
  end.
Definition scope_refs (fuel : nat) (id : str) (schema : jv) : res jv := walk (replacing (scope_ref id)) fuel 0 schema.
