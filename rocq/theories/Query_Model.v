(** ngoschema/query.py. Objects are [pyval]s. *)
From Verif Require Export PyVal Cmp_Model Coll_Model Str_Model.

Definition chars := list_ascii_of_string.
Definition unchars := string_of_list_ascii.

(** [s.split(sep)] for a non-empty separator: leftmost, non-overlapping *)
Fixpoint split_on_loop (fuel : nat) (sep s : list ascii) : list (list ascii) :=
  match fuel with
  | 0 => [s]
  | S f =>
      if is_prefix sep s then [] :: split_on_loop f sep (skipn (length sep) s)
      else match s with
           | [] => [[]]
           | x :: s' => match split_on_loop f sep s' with [] => [[x]] | w :: ws => (x :: w) :: ws end
           end
  end.
Definition split_on (sep s : list ascii) : list (list ascii) := split_on_loop (S (length s)) sep s.

(** query.py:20-43 *)
Definition operators : list string :=
  ["lt"; "le"; "eq"; "ne"; "neq"; "ge"; "gt"; "not"; "contains"; "in"; "size"; "intersects";
   "ieq"; "icontains"; "startswith"; "istartswith"; "endswith"; "iendswith"; "regex"]%string.
Definition is_operator (e : string) : bool := mem e operators || is_prefix ["@"%char] (chars e).

(** query.py:57-65 [_sort_criteria] after the split: elements are popped from the end while they are operators *)
Fixpoint take_ops (rev_elts : list string) (ops : list string) : list string * list string :=
  match rev_elts with
  | [] => ([], ops)
  | e :: es => if is_operator e then take_ops es (e :: ops) else (rev rev_elts, ops)
  end.
Definition sort_criteria (criteria : string) : list string * list string :=
  take_ops (rev (map unchars (split_on ["_"; "_"]%char (chars criteria)))) [].

(** one criterion as stored in [attrs_ops] (query.py:124-131): path, operators without the first 'not', negation flag,
    and the value compared with. *)
Record crit := { c_ks : list string; c_ops : list string; c_neg : bool; c_val : pyval }.
Fixpoint remove_first (x : string) (l : list string) : list string :=
  match l with [] => [] | y :: l' => if eq_dec x y then l' else y :: remove_first x l' end.
Definition mk_crit (kv : string * pyval) : crit :=
  let p := sort_criteria (fst kv) in
  let ops := snd p in
  {| c_ks := fst p; c_ops := if mem "not"%string ops then remove_first "not" ops else ops;
     c_neg := mem "not"%string ops; c_val := snd kv |}.

Definition path_keys (ks : list string) : list pykey := map KStr ks.

Section Ops.
  (** [_apply_op] (query.py:69-106): one operator on the value read and the value given; arbitrary here, see [std_op]
      below for the operators defined without regular expressions *)
  Variable apply_op : string -> pyval -> pyval -> res pyval.

  (** query.py:108-110 *)
  Fixpoint apply_ops (ops : list string) (a b : pyval) : res pyval :=
    match ops with [] => Ok a | op :: ops' => do a' <- apply_op op a b; apply_ops ops' a' b end.
  Definition apply_ops_test (ops : list string) (negate : bool) (a b : pyval) : res bool :=
    do r <- apply_ops ops a b; Ok (if negate then negb (truthy r) else truthy r).

  (** query.py:143-153: a mapping met with operators left: an operator name that is a key of the mapping extends the
      path instead. [ks.append(ops.pop(0))] changes the stored lists while [ops] is being iterated ([i] is the iteration
      index), so the change stays for the next objects. *)
  Fixpoint child_loop (i : nat) (o : pyval) (ks ops : list string) (test : bool) {struct ops}
    : pyval * list string * list string * bool :=
    match nth_error ops i, ops with
    | Some op, op0 :: ops' =>
        match get_descendant_str o (chars op) with
        | Ok o2 => if truthy o2 then child_loop (S i) o2 (ks ++ [op0]) ops' test else (o, ks, ops, false)
        | Err _ => (o, ks, ops, false)
        end
    | _, _ => (o, ks, ops, test)
    end.

  (** query.py:135-161: one turn of the loop over the criteria: new test value, updated criterion, stop flag *)
  Definition crit_step (any_of : bool) (obj : pyval) (test : bool) (c : crit) : res (bool * crit * bool) :=
    do o <- get_descendant obj (path_keys (c_ks c));
    match o with
    | VNone => Ok (false, c, true)                                                             (* 138-142 *)
    | _ =>
        let '(o', ks', ops', test') :=
          match c_ops c with
          | [] => (o, c_ks c, c_ops c, test)
          | _ => if is_mapping o then child_loop 0 o (c_ks c) (c_ops c) test
                 else (o, c_ks c, c_ops c, test)
          end in
        let c' := {| c_ks := ks'; c_ops := ops'; c_neg := c_neg c; c_val := c_val c |} in
        do test2 <- apply_ops_test (match ops' with [] => ["eq"%string] | _ => ops' end) (c_neg c) o' (c_val c);
        let test'' := if any_of then test' || test2 else test' && test2 in
        Ok (test'', c', if any_of then test2 else negb test'')
    end.

  Fixpoint crit_loop (any_of : bool) (obj : pyval) (test : bool) (cs : list crit) : res (bool * list crit) :=
    match cs with
    | [] => Ok (test, [])
    | c :: cs' =>
        do r <- crit_step any_of obj test c;
        let '(test', c', stop) := r in
        if stop then Ok (test', c' :: cs')
        else do r' <- crit_loop any_of obj test' cs'; Ok (fst r', c' :: snd r')
    end.

  (** query.py:163-171: attributes required to be present *)
  Fixpoint attr_loop (any_of : bool) (obj : pyval) (test : bool) (attrs : list string) : res bool :=
    match attrs with
    | [] => Ok test
    | k :: attrs' =>
        do o <- get_descendant obj (path_keys (map unchars (split_on ["_"; "_"]%char (chars k))));
        let test2 := negb (beq o VNone) in
        let test' := if any_of then test || test2 else test && test2 in
        if (if any_of then test2 else negb test') then Ok test' else attr_loop any_of obj test' attrs'
    end.

  (** query.py:133-175 [Filter.__call__]; the criteria are the state of the filter object *)
  Definition filter_call (attrs : list string) (negate any_of : bool) (cs : list crit) (obj : pyval) : res (bool * list crit) :=
    do r <- crit_loop any_of obj (negb any_of) cs;
    do t <- attr_loop any_of obj (fst r) attrs;
    Ok (negb (eqb t negate), snd r).

  (** hashable values, for the [seen] set *)
  Fixpoint hashable (v : pyval) : bool :=
    match v with VList _ | VDict _ => false | VTup l => forallb hashable l | _ => true end.

  (** query.py:233-269 [_filter_or_exclude]: what the generator yields, and the exception that ends it, if any *)
  Fixpoint fe_loop (attrs : list string) (negate any_of distinct : bool) (cs : list crit) (seen : list pyval) (objs : list pyval)
    : list pyval * option exn :=
    match objs with
    | [] => ([], None)
    | o :: objs' =>
        if truthy o then
          match filter_call attrs negate any_of cs o with
          | Err e => ([], Some e)
          | Ok (false, cs') => fe_loop attrs negate any_of distinct cs' seen objs'
          | Ok (true, cs') =>
              if distinct then
                if hashable o then
                  if vmem o seen then fe_loop attrs negate any_of distinct cs' seen objs'
                  else let r := fe_loop attrs negate any_of distinct cs' (o :: seen) objs' in (o :: fst r, snd r)
                else ([], Some TypeError)
              else let r := fe_loop attrs negate any_of distinct cs' seen objs' in (o :: fst r, snd r)
          end
        else fe_loop attrs negate any_of distinct cs seen objs'
    end.
  Definition filter_or_exclude (attrs : list string) (kvs : list (string * pyval)) (negate any_of distinct : bool) (objs : list pyval) :=
    fe_loop attrs negate any_of distinct (map mk_crit kvs) [] objs.

  (** * Query objects (query.py:212-510). The source is a list, which can be iterated again and again, or a one-shot
      generator given by what it has still to yield. *)
  Inductive source := SList (l : list pyval) | SGen (l : list pyval).
  (** [_result_cache]: unset, a list, or a one-shot reversed iterator (line 414) *)
  Inductive cache := CNone | CList (l : list pyval) | CIter (l : list pyval).
  Record query := { q_src : source; q_cache : cache; q_order_by : bool; q_reverse : bool; q_distinct : bool }.
  Definition mk_query (s : source) (order_by reverse distinct : bool) : query :=
    {| q_src := s; q_cache := CNone; q_order_by := order_by; q_reverse := reverse; q_distinct := distinct |}.

  Definition src_items (s : source) : list pyval := match s with SList l => l | SGen l => l end.
  (** the source after [n] of its items have been taken by a loop *)
  Definition src_consume (s : source) (n : nat) : source := match s with SList l => SList l | SGen l => SGen (skipn n l) end.
  Definition with_cache (q : query) (c : cache) (s : source) : query :=
    {| q_src := s; q_cache := c; q_order_by := q_order_by q; q_reverse := q_reverse q; q_distinct := q_distinct q |}.

  (** query.py:401-415 [result_cache]: [sorted(list, key)] with a positional key is a TypeError, raised after the
      unsorted list has been stored *)
  Definition result_cache (q : query) : query * res cache :=
    match q_cache q with
    | CNone =>
        let l := src_items (q_src q) in
        let s' := src_consume (q_src q) (length l) in
        if q_order_by q then (with_cache q (CList l) s', Err TypeError)
        else let c := if q_reverse q then CIter (rev l) else CList l in (with_cache q c s', Ok c)
    | c => (q, Ok c)
    end.

  Inductive qread := QIter | QLen | QItem (k : Z) | QContains (x : pyval) | QFirst | QLast | QCount | QIsEmpty
  | QGet (attrs : list string) (kvs : list (string * pyval)) | QNext (attrs : list string) (kvs : list (string * pyval)).
  Inductive qout := OList (r : res (list pyval)) | ONat (r : res nat) | OVal (r : res pyval) | OBool (r : res bool).

  (** items up to and including the first equal to [x]: what [for o in self] has taken when it returns *)
  Fixpoint after_match (x : pyval) (l : list pyval) : list pyval :=
    match l with [] => [] | y :: l' => if val_eq y x then l' else after_match x l' end.

  Definition q_len (q : query) : query * res nat :=
    let '(q', c) := result_cache q in
    (q', match c with Ok (CList l) => Ok (length l) | Ok _ => Err TypeError | Err e => Err e end).          (* 428-429 *)
  Definition q_item (q : query) (k : Z) : query * res pyval :=                                              (* 417-426 *)
    if Z.ltb k 0 then (q, Err AssertionError)
    else let '(q', c) := result_cache q in
         (q', match c with Ok (CList l) => py_index l k | Ok _ => Err TypeError | Err e => Err e end).

  (** [next] takes items until the first match; [taken] counts them *)
  Fixpoint next_loop (attrs : list string) (distinct : bool) (cs : list crit) (taken : nat) (objs : list pyval) : res pyval * nat :=
    match objs with
    | [] => (Err StopIteration, taken)
    | o :: objs' =>
        if truthy o then
          match filter_call attrs false false cs o with
          | Err e => (Err e, S taken)
          | Ok (false, cs') => next_loop attrs distinct cs' (S taken) objs'
          | Ok (true, _) => if distinct then if hashable o then (Ok o, S taken) else (Err TypeError, S taken) else (Ok o, S taken)
          end
        else next_loop attrs distinct cs (S taken) objs'
    end.

  Definition qstep (q : query) (r : qread) : query * qout :=
    match r with
    | QIter =>                                                                                             (* 398-399 *)
        let '(q', c) := result_cache q in
        match c with
        | Ok (CList l) => (q', OList (Ok l))
        | Ok (CIter l) => (with_cache q' (CIter []) (q_src q'), OList (Ok l))
        | Ok CNone => (q', OList (Ok []))
        | Err e => (q', OList (Err e))
        end
    | QLen | QCount => let '(q', n) := q_len q in (q', ONat n)                                              (* 428, 495 *)
    | QIsEmpty => let '(q', n) := q_len q in (q', OBool (do m <- n; Ok (Nat.eqb m 0)))                      (* 498 *)
    | QItem k => let '(q', v) := q_item q k in (q', OVal v)
    | QFirst => let '(q', v) := q_item q 0 in (q', OVal (match v with Err IndexError => Ok VNone | x => x end))     (* 478-482 *)
    | QLast => let '(q', v) := q_item q (-1) in (q', OVal (match v with Err IndexError => Ok VNone | x => x end))   (* 484-488 *)
    | QContains x =>                                                                                       (* 431-436 *)
        let '(q', c) := result_cache q in
        match c with
        | Ok (CList l) => (q', OBool (Ok (vmem x l)))
        | Ok (CIter l) => (with_cache q' (CIter (after_match x l)) (q_src q'), OBool (Ok (vmem x l)))
        | Ok CNone => (q', OBool (Ok false))
        | Err e => (q', OBool (Err e))
        end
    | QGet attrs kvs =>                                                                                    (* 458-469 *)
        let l := src_items (q_src q) in
        let r := filter_or_exclude attrs kvs false false (q_distinct q) l in
        (with_cache q (q_cache q) (src_consume (q_src q) (length l)),
         OVal (match r with (_, Some e) => Err e | ([x], None) => Ok x | (_, None) => Err (UserError 0) end))
    | QNext attrs kvs =>                                                                                   (* 471-476 *)
        let l := src_items (q_src q) in
        let r := next_loop attrs (q_distinct q) (map mk_crit kvs) 0 l in
        (with_cache q (q_cache q) (src_consume (q_src q) (snd r)), OVal (fst r))
    end.
  Fixpoint qrun (q : query) (rs : list qread) : query * list qout :=
    match rs with
    | [] => (q, [])
    | r :: rs' => let p := qstep q r in let p' := qrun (fst p) rs' in (fst p', snd p :: snd p')
    end.

  (** * set operations (query.py:438-456) on the cached lists of the receiver and of the others *)
  (** [res += o.result_cache] extends the receiver's own cache in place: (receiver's cache afterwards, result) *)
  Definition q_union (own : list pyval) (others : list (list pyval)) : list pyval * list pyval :=
    let r := fold_left (fun acc o => acc ++ o) others own in (r, r).
  Definition q_intersection (own : list pyval) (others : list (list pyval)) : list pyval * list pyval :=
    (own, fold_left (fun acc o => filter (fun x => vmem x o) acc) others own).
  Definition q_difference (own : list pyval) (others : list (list pyval)) : list pyval * list pyval :=
    (own, fold_left (fun acc o => filter (fun x => negb (vmem x o)) acc) others own).
End Ops.

(** query.py:69-106 for the operators without regular expressions. [rx op a b] stands for the regular-expression
    operators. A set is the list of its elements. *)
Definition zcmp (op : string) (c : comparison) : option bool :=
  if beq op "lt"%string then Some (match c with Lt => true | _ => false end)
  else if beq op "le"%string then Some (match c with Gt => false | _ => true end)
  else if beq op "ge"%string then Some (match c with Lt => false | _ => true end)
  else if beq op "gt"%string then Some (match c with Gt => true | _ => false end)
  else None.
Fixpoint has_suffix (p s : list ascii) : bool :=
  beq p s || match s with [] => false | _ :: s' => has_suffix p s' end.
Fixpoint digits_val (acc : Z) (s : list ascii) : option Z :=
  match s with
  | [] => Some acc
  | c :: s' => let n := nat_of_ascii c in
               if (48 <=? n) && (n <=? 57) then digits_val (acc * 10 + Z.of_nat (n - 48))%Z s' else None
  end.
(** [int(s)] on optional sign and digits (simplification: no blanks or underscores) *)
Definition parse_int (s : list ascii) : option Z :=
  match s with
  | [] => None
  | ["-"%char] => None
  | "-"%char :: s' => option_map Z.opp (digits_val 0 s')
  | _ => digits_val 0 s
  end.
Definition elements (v : pyval) : option (list pyval) := match v with VList l | VTup l => Some l | _ => None end.
Definition py_in (x c : pyval) : res bool :=
  match c with
  | VList l | VTup l => Ok (vmem x l)
  | VDict l => if hashable x then Ok (match x with VStr s => dmem s l | _ => false end) else Err TypeError
  | VStr s => match x with VStr t => Ok (contains_sub (chars t) (chars s)) | _ => Err TypeError end
  | _ => Err TypeError
  end.
Definition std_op (rx : string -> string -> string -> res pyval) (op : string) (a b : pyval) : res pyval :=
  if mem op ["startswith"; "endswith"; "ieq"; "istartswith"; "iendswith"; "icontains"; "regex"]%string then      (* 70-74 *)
    match a, b with
    | VStr s, VStr t =>
        if beq op "startswith"%string then Ok (VBool (is_prefix (chars t) (chars s)))
        else if beq op "endswith"%string then Ok (VBool (has_suffix (chars t) (chars s)))
        else rx op s t
    | _, _ => Err TypeError
    end
  else if beq op "eq"%string then Ok (VBool (val_eq a b))
  else if mem op ["ne"; "neq"]%string then Ok (VBool (negb (val_eq a b)))
  else if mem op ["lt"; "le"; "ge"; "gt"]%string then
    match val_cmp a b with
    | Some c => match zcmp op c with Some r => Ok (VBool r) | None => Err TypeError end
    | None => Err TypeError
    end
  else if beq op "contains"%string then do r <- py_in b a; Ok (VBool r)                                           (* operator.contains *)
  else if beq op "size"%string then                                                                               (* 79-80 *)
    match a with
    | VList l | VTup l => Ok (VInt (Z.of_nat (length l)))
    | VDict l => Ok (VInt (Z.of_nat (length l)))
    | VStr s => Ok (VInt (Z.of_nat (length (chars s))))
    | _ => Err TypeError
    end
  else if is_prefix ["@"%char] (chars op) then                                                                    (* 81-82 *)
    match parse_int (skipn 1 (chars op)) with Some z => getitem a (KInt z) | None => Err ValueError end
  else if beq op "in"%string then do r <- py_in a b; Ok (VBool r)                                                 (* 83-84 *)
  else if beq op "intersects"%string then                                                                         (* 87-92 *)
    match elements a, elements b with
    | Some la, Some lb =>
        if forallb hashable la && forallb hashable lb then Ok (VList (vdedup (filter (fun x => vmem x lb) la))) else Err TypeError
    | _, _ => Err TypeError
    end
  else Ok VNone.
