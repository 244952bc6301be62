(** Instances of a protocol class: cached properties, invalidation, item and attribute access.
    ngoschema/protocols/collection_protocol.py, ngoschema/protocols/object_protocol.py.
    Simplifications: names given are the declared (raw) names (aliases and translations are in Alias_Model); names with
    a '.' (paths into sub-objects), relationships, setters and [fdel] are not modelled; logging is dropped. *)
From Verif Require Export PyVal Cmp_Model.

(** the values read for the inputs of an item, [_itemsInputs[item]] *)
Notation env := (dict string pyval).

(** What a class declares. [ic_eval] stands for [_items_evaluate] (collection_protocol.py:121-139): the result of the
    item's type on its raw value, given the values of its inputs and the contents of the mutable values ([VObj n] refers
    to the [n]-th). *)
Record icls := {
  ic_deps : dict string (list string);                             (* _dependencies *)
  ic_prim : string -> bool;                                        (* items_type(item).is_primitive() *)
  ic_declared : string -> bool;                                    (* has a PropertyDescriptor *)
  ic_additional : bool;                                            (* _propertiesAdditional *)
  ic_required : list string;
  ic_readonly : list string;
  ic_translated : list string;                                     (* raw names in _propertiesTranslation *)
  ic_lazy : bool;                                                  (* _lazyLoading *)
  ic_limit : nat;                                                  (* Python's recursion limit *)
  ic_expr : pyval -> bool;                                         (* Pattern.check or Expr.check *)
  ic_ins : string -> pyval -> list string;                         (* names the raw value mentions; empty for raw literals *)
  ic_getter : string -> option (env -> pyval);                     (* fget *)
  ic_eval : list pyval -> string -> pyval -> env -> res pyval
}.

Record ist := {
  i_data : dict string pyval;                                      (* _data *)
  i_val : dict string pyval;                                       (* _dataValidated *)
  i_inp : dict string env;                                         (* _itemsInputs *)
  i_heap : list pyval                                              (* contents of the mutable values *)
}.
Definition with_data (d : dict string pyval) (s : ist) : ist :=
  {| i_data := d; i_val := i_val s; i_inp := i_inp s; i_heap := i_heap s |}.
Definition with_cache (c : dict string pyval * dict string env) (s : ist) : ist :=
  {| i_data := i_data s; i_val := fst c; i_inp := snd c; i_heap := i_heap s |}.

Definition is_none (v : pyval) : bool := match v with VNone => true | _ => false end.
Definition or_none (o : option pyval) : pyval := match o with Some v => v | None => VNone end.
Definition or_empty (o : option env) : env := match o with Some e => e | None => [] end.

(** ObjectProtocol._touch (object_protocol.py:245-251), after [_data] has been set by __init__ *)
Definition fresh (data : dict string pyval) (heap : list pyval) : ist :=
  {| i_data := data; i_val := map (fun p => (fst p, VNone)) data; i_inp := map (fun p => (fst p, [])) data; i_heap := heap |}.

Section Class.
  Variable c : icls.

  Definition deps_of (k : string) : list string := match dget k (ic_deps c) with Some s => s | None => [] end.

  (** collection_protocol.py:94-95 *)
  Definition clear_item (item : string) (t : dict string pyval * dict string env) : dict string pyval * dict string env :=
    (dset item VNone (fst t), dset item [] (snd t)).

  (** _items_touch: collection_protocol.py:92-98 then object_protocol.py:239-243; both loop over the dependents *)
  Fixpoint touch (fuel : nat) (item : string) (t : dict string pyval * dict string env) : res (dict string pyval * dict string env) :=
    match fuel with
    | 0 => Err RecursionError
    | S f =>
        let loop := fold_left (fun r de => do t' <- r; if mem item (snd de) then touch f (fst de) t' else Ok t') (ic_deps c) in
        loop (loop (Ok (clear_item item t)))
    end.

  (** _set_data (collection_protocol.py:169-178) *)
  Definition set_data (k : string) (v : pyval) (s : ist) : res ist :=
    match dget k (i_data s) with
    | None => Err KeyError
    | Some orig =>
        if ic_prim c k && val_eq v orig then Ok (with_data (dset k v (i_data s)) s)
        else do t <- touch (ic_limit c) k (i_val s, i_inp s); Ok (with_data (dset k v (i_data s)) (with_cache t s))
    end.

  (** _set_dataValidated (collection_protocol.py:180-188) *)
  Definition set_validated (k : string) (v : pyval) (s : ist) : ist :=
    let keep := ic_prim c k && match dget k (i_data s) with Some orig => ic_expr c orig | None => false end in
    {| i_data := if keep then i_data s else dset k v (i_data s); i_val := dset k v (i_val s); i_inp := i_inp s; i_heap := i_heap s |}.
  Definition set_inputs (k : string) (e : env) (s : ist) : ist := with_cache (i_val s, dset k e (i_inp s)) s.

  Definition evaluate (k : string) (e : env) (s : ist) : res pyval :=
    match dget k (i_data s) with None => Err KeyError | Some raw => ic_eval c (i_heap s) k raw e end.

  (** the two loops of _items_inputs_evaluate (collection_protocol.py:100-119): a failing input is left out *)
  Fixpoint read_all (rd : string -> ist -> res pyval * ist) (ks : list string) (e : env) (s : ist) : env * ist :=
    match ks with
    | [] => (e, s)
    | k :: ks' => let (r, s1) := rd k s in read_all rd ks' (match r with Ok v => dset k v e | Err _ => e end) s1
    end.
  Definition inputs_with (rd : string -> ist -> res pyval * ist) (k : string) (s : ist) : env * ist :=
    let (e1, s1) := read_all rd (deps_of k) [] s in
    if ic_prim c k then
      match dget k (i_data s1) with Some raw => read_all rd (ic_ins c k raw) e1 s1 | None => (e1, s1) end
    else (e1, s1).

  (** _is_outdated (collection_protocol.py:190-192); [old] is read before the inputs are *)
  Definition is_outdated (rd : string -> ist -> res pyval * ist) (k : string) (raw cv : pyval) (s : ist) : bool * ist :=
    if is_none cv && negb (is_none raw) then (true, s)
    else let old := or_empty (dget k (i_inp s)) in
         let (cur, s1) := inputs_with rd k s in (negb (val_eq (VDict old) (VDict cur)), s1).

  (** ObjectProtocol.__getitem__ (object_protocol.py:381-411) and PropertyDescriptor.__get__ (66-91) *)
  Fixpoint get_item (fuel : nat) (k : string) (s : ist) {struct fuel} : res pyval * ist :=
    match fuel with
    | 0 => (Err RecursionError, s)
    | S f =>
        match dget k (i_data s), dget k (i_val s) with
        | Some raw, Some cv =>
            if ic_declared c k then
              let (stale, s1) := is_outdated (get_item f) k raw cv s in                             (* 71 *)
              let outdated := match ic_getter c k with                                              (* 72-73 *)
                              | Some _ => stale || is_none (or_none (dget k (i_val s1)))
                              | None => stale end in
              if outdated then
                let (cur, s2) := inputs_with (get_item f) k s1 in                                   (* 76 *)
                match (match ic_getter c k with Some g => set_data k (g cur) s2 | None => Ok s2 end) with   (* 77-78 *)
                | Err e => (Err e, s2)
                | Ok s3 =>
                    match evaluate k cur s3 with                                                    (* 80 *)
                    | Err e => (Err e, s3)
                    | Ok v => (Ok v, set_inputs k cur (set_validated k v s3))                       (* 80-81 *)
                    end
                end
              else (match dget k (i_val s1) with Some v => Ok v | None => Err KeyError end, s1)      (* 86 *)
            else
              let (outdated, s1) := if ic_lazy c then (true, s) else is_outdated (get_item f) k raw cv s in  (* 408 *)
              if outdated then
                let (cur, s2) := inputs_with (get_item f) k s1 in
                let s3 := set_inputs k cur s2 in                                                    (* 409 *)
                match evaluate k cur s3 with
                | Err e => (Err e, s3)
                | Ok v => (Ok v, set_validated k v s3)                                              (* 410 *)
                end
              else (match dget k (i_val s1) with Some v => Ok v | None => Err KeyError end, s1)
        | _, _ => (Err KeyError, s)
        end
    end.

  Definition read (k : string) (s : ist) : res pyval * ist := get_item (ic_limit c) k s.

  (** ObjectProtocol.__setitem__ (object_protocol.py:413-434) and PropertyDescriptor.__set__ (93-109) *)
  Definition set_item (k : string) (v : pyval) (s : ist) : res pyval * ist :=
    if ic_declared c k then
      if mem k (ic_readonly c) then (Err AttributeError, s)                                         (* 96-97 *)
      else match set_data k v s with                                                                (* 98 *)
           | Err e => (Err e, s)
           | Ok s1 =>
               if ic_lazy c then (Ok VNone, s1)
               else let (cur, s2) := inputs_with read k s1 in
                    let s3 := set_inputs k cur s2 in                                                (* 100 *)
                    match evaluate k cur s3 with
                    | Err e => (Err e, s3)
                    | Ok w => (Ok VNone, set_validated k w s3)                                      (* 102 *)
                    end
           end
    else if ic_additional c then
      (Ok VNone, {| i_data := dset k v (i_data s); i_val := dset k v (i_val s); i_inp := i_inp s; i_heap := i_heap s |})  (* 433-434 *)
    else (Err KeyError, s).

  (** ObjectProtocol.__setattr__ (368-379), for a public name *)
  Definition set_attr (k : string) (v : pyval) (s : ist) : res pyval * ist :=
    match set_item k v s with (Err KeyError, s') => (Err AttributeError, s') | p => p end.

  Definition forget (k : string) (s : ist) : ist :=
    {| i_data := ddel k (i_data s); i_val := ddel k (i_val s); i_inp := ddel k (i_inp s); i_heap := i_heap s |}.

  (** PropertyDescriptor.__delete__ (111-119), reached by [del obj.k] *)
  Definition del_attr (k : string) (s : ist) : res pyval * ist :=
    if ic_declared c k then
      if mem k (ic_required c) then (Err AttributeError, s)
      else if dmem k (i_data s) then (Ok VNone, forget k s) else (Err KeyError, s)
    else (Err AttributeError, s).

  (** ObjectProtocol.__delitem__ (436-444) *)
  Definition del_item (k : string) (s : ist) : res pyval * ist :=
    if mem k (ic_translated c) then del_attr k s
    else if dmem k (i_data s) then
           if dmem k (i_inp s) then (Ok VNone, forget k s)
           else (Err KeyError, with_data (ddel k (i_data s)) s)                                     (* 442 then 443 raises *)
         else (Err KeyError, s).

  Inductive iop := GetItem (k : string) | SetItem (k : string) (v : pyval) | SetAttr (k : string) (v : pyval)
                 | DelAttr (k : string) | DelItem (k : string)
                 | Mutate (n : nat) (v : pyval).                   (* a mutable value is changed in place *)
  Fixpoint set_nth (n : nat) (v : pyval) (l : list pyval) : list pyval :=
    match l, n with
    | [], _ => []
    | _ :: l', 0 => v :: l'
    | x :: l', S n' => x :: set_nth n' v l'
    end.
  Definition step (o : iop) (s : ist) : res pyval * ist :=
    match o with
    | GetItem k => read k s
    | SetItem k v => set_item k v s
    | SetAttr k v => set_attr k v s
    | DelAttr k => del_attr k s
    | DelItem k => del_item k s
    | Mutate n v => (Ok VNone, {| i_data := i_data s; i_val := i_val s; i_inp := i_inp s; i_heap := set_nth n v (i_heap s) |})
    end.
  Fixpoint run (ops : list iop) (s : ist) : list (res pyval) * ist :=
    match ops with
    | [] => ([], s)
    | o :: ops' => let (r, s1) := step o s in let (rs, s2) := run ops' s1 in (r :: rs, s2)
    end.
End Class.
