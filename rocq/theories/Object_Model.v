(** ngoschema/types/object.py: evaluation order, validation, print order; ObjectProtocol._call_order.
    Python sets are lists without duplicates; their iteration order is that of the list (theorems do not depend on it). *)
From Verif Require Export Types_Model Order_Model.

(** * ObjectDeserializer._call_order (object.py:29-46): what the generator yields, and how it ends *)
Definition call_order (required keys : list string) (deps : dict string (list string)) : list string * res unit :=
  let unordered := filter (fun k => negb (mem k required)) (dedup keys) in
  match unordered with
  | [] => (required, Ok tt)                                                                        (* 38 *)
  | _ =>
      let levels := topological_sort deps in                                                       (* 39 *)
      let ordered := flat_map (filter (fun i => mem i unordered)) (fst levels) in                  (* 40-43 *)
      match snd levels with
      | Ok _ => (required ++ ordered ++ filter (fun i => negb (mem i ordered)) unordered, Ok tt)   (* 44-45 *)
      | Err e => (required ++ ordered, Err e)
      end
  end.

(** [a.update(b)] on sets *)
Definition set_union (a b : list string) : list string := a ++ filter (fun x => negb (mem x a)) (dedup b).

(** * ObjectProtocol._call_order (object_protocol.py:190-203). [inputs]: for each key of the value, the properties its
    raw value mentions. [defaultdict(set, **self._dependencies)] copies the table but shares the sets, so that [update]
    extends the class's own sets; keys the class has no entry for get a new set. Returns the class table afterwards and
    the table given to the sort. Line 203 asks the class [ObjectDeserializer], whose [_required] is the empty set (object.py:23), so that
    the names the class requires are ordered like the others. *)
Definition add_inputs (deps : dict string (list string)) (k : string) (ins : list string) : dict string (list string) :=
  match ins with
  | [] => deps
  | _ => dset k (set_union (match dget k deps with Some s => s | None => [] end) ins) deps
  end.
Definition protocol_deps (cdeps : dict string (list string)) (inputs : list (string * list string))
  : dict string (list string) * dict string (list string) :=
  let local := fold_left (fun d ki => add_inputs d (fst ki) (snd ki)) inputs cdeps in
  (map (fun ks => (fst ks, match dget (fst ks) local with Some s => s | None => snd ks end)) cdeps, local).
Definition protocol_call_order (cdeps : dict string (list string)) (inputs : list (string * list string)) (keys : list string) :=
  let p := protocol_deps cdeps inputs in (fst p, call_order [] keys (snd p)).

(** * validation: Object._validate (object.py:215-228), Collection._validate (collection.py:95-103),
    ObjectDeserializer._validate (object.py:60-65) *)
Record object_cfg := {
  ob_required : list string;
  ob_declared : list string;                     (* names of the declared properties *)
  ob_patterns : list (string -> bool);           (* [reg.search] of the pattern properties *)
  ob_additional : bool                           (* truth value of _propertiesAdditional *)
}.
Section Validate.
  Variable js_errors : pyval -> bool.                         (* JSON-schema errors for the keywords not excluded *)
  Variable item_validate : string -> pyval -> res pyval.      (* validation of an item by its type *)

  Definition undeclared (c : object_cfg) (k : string) : bool :=
    negb (mem k (ob_declared c)) && negb (existsb (fun p => p k) (ob_patterns c)).
  Fixpoint validate_props (excludes : list string) (l : list (string * pyval)) : res (list (string * pyval)) :=
    match l with
    | [] => Ok []
    | (k, v) :: l' =>
        do v' <- (if mem k excludes then Ok v else match v with VNone => Ok v | _ => item_validate k v end);
        do r <- validate_props excludes l'; Ok ((k, v') :: r)
    end.
  (** [excludes] are the keys left out of the item validation; the required keys are checked whatever it contains *)
  Definition object_validate (c : object_cfg) (excludes : list string) (value : list (string * pyval)) : res (list (string * pyval)) :=
    if existsb (undeclared c) (dkeys value) && negb (ob_additional c) then Err InvalidValue            (* 219-225 *)
    else if negb (forallb (fun k => dmem k value) (ob_required c)) then Err InvalidValue               (* 61-64 *)
    else if js_errors (VDict value) then Err InvalidValue
    else validate_props excludes value.
End Validate.

(** * print order. [excludes] is either given by the caller or the default argument, one list object shared by all the
    calls; line 91 extends that object in place. The state is the content of the default list. *)
Record print_call := {
  pc_required : list string; pc_readOnly : list string;
  pc_excludes : option (list string);            (* None: the default argument is used *)
  pc_only : list string; pc_no_defaults : bool; pc_no_readOnly : bool;
  pc_default : string -> option pyval;           (* the default of a property's type, when it has one *)
  pc_value : list (string * pyval)
}.
(** ObjectSerializer._print_order (object.py:82-97) *)
Definition print_order_base (excl : list string) (c : print_call) : list string :=
  let keys := dkeys (pc_value c) in
  let req := filter (fun k => mem k (pc_required c)) keys in
  let all_ordered := req ++ filter (fun k => negb (mem k req)) keys in                                 (* 86-87 *)
  filter (fun k => mem k (pc_required c) ||
                   match is_included (KStr k) (VDict (pc_value c)) (map KStr excl) (map KStr (pc_only c)) (pc_no_defaults c) with
                   | Ok b => b | Err _ => false end) all_ordered.
(** Object._print_order (object.py:242-260); simplification: no key is also the name of a negated alias (line 255) *)
Definition print_order_obj (excl : list string) (c : print_call) : list string :=
  filter (fun k => negb (pc_no_defaults c &&
                         match pc_default c k, dget k (pc_value c) with Some d, Some v => beq v d | _, _ => false end))
         (print_order_base excl c).
(** one call: the default list before and after *)
Definition print_order (shared : list string) (c : print_call) : list string * list string :=
  let excl := match pc_excludes c with Some e => e | None => shared end in
  let excl' := if pc_no_readOnly c then excl ++ pc_readOnly c else excl in                             (* 90-91 *)
  (match pc_excludes c with Some _ => shared | None => excl' end, print_order_obj excl' c).
Fixpoint print_calls (shared : list string) (cs : list print_call) : list (list string) :=
  match cs with [] => [] | c :: cs' => let r := print_order shared c in snd r :: print_calls (fst r) cs' end.
