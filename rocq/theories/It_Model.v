(** The type of an item of an object, with its cache: ngoschema/protocols/object_protocol.py: ObjectProtocol._items_type 495-511;
    ngoschema/types/object.py: Object._items_type 156-173; ngoschema/protocols/type_proxy.py: proxy_type 33-36, the calls 38-71;
    ngoschema/managers/type_builder.py: the registry 89-96. *)
From Verif Require Export PyVal.
Local Open Scope list_scope.

(** A type: its identity, its truth (false only for the type without values, constants.py:28-31), and [_proxyUri], which the stand-in
    for a type under construction has (type_proxy.py:11-28), and every class derived from a stand-in. *)
Record ty := { ty_n : nat; ty_truth : bool; ty_stand : option string }.
(** what a class of objects holds: its properties, its patterns (in the order in which the set gives them), the type of additional
    properties, the aliases and negated aliases *)
Record ocls := {
  oc_props : dict string ty; oc_patterns : list ((string -> bool) * ty); oc_additional : ty;
  oc_aliases : dict string string; oc_negated : dict string string
}.
(** [_items_type_cache], one per class (object_protocol.py:773) *)
Definition cache := dict string (option ty).
(** the registry of types *)
Definition types := dict string ty.

Section It.
  Variable c : ocls.

  (** object.py:156-173 *)
  Definition find_type (st : cache) (i : string) : res ty * cache :=
    match (match dget i st with Some (Some t) => if ty_truth t then Some t else None | _ => None end) with
    | Some t => (Ok t, st)                                                                             (* 159-161 *)
    | None =>
        match dget i (oc_props c) with
        | Some t => (Ok t, dset i (Some t) st)                                                         (* 162-165 *)
        | None =>
            match find (fun p => fst p i) (oc_patterns c) with
            | Some p => (Ok (snd p), dset i (Some (snd p)) st)                                         (* 166-169 *)
            | None => if ty_truth (oc_additional c) then (Ok (oc_additional c), dset i (Some (oc_additional c)) st)   (* 170-172 *)
                      else (Err KeyError, st)                                                          (* 173 *)
            end
        end
    end.

  (** object_protocol.py:495-511. Line 501 is overwritten by line 502: only the negated aliases are followed. *)
  Definition item_type (reg : types) (st : cache) (item : string) : res ty * cache :=
    match dget item st with
    | Some (Some t) => (Ok t, st)
    | _ =>
        let i := match dget item (oc_negated c) with Some i => i | None => item end in
        match find_type st i with
        | (Err e, st1) => (Err e, st1)
        | (Ok t, st1) =>
            let st2 := dset item (Some t) st1 in
            match (if ty_truth t then ty_stand t else None) with
            | None => (Ok t, st2)
            | Some u => match dget u reg with
                        | Some p => if ty_truth p then (Ok p, dset item (Some p) st2) else (Ok t, dset item None st2)
                        | None => (Ok t, dset item None st2)
                        end
            end
        end
    end.

  (** what a program does: ask for the type of an item of the class, register a type (type_builder.py:96) *)
  Inductive event := Ask (item : string) | Register (u : string) (t : ty).
  Definition step (s : cache * types) (e : event) : cache * types :=
    match e with
    | Ask k => (snd (item_type (snd s) (fst s) k), snd s)
    | Register u t => (fst s, dset u t (snd s))
    end.
  Definition after (h : list event) : cache * types := fold_left step h ([], []).
  (** the answer given after [h] *)
  Definition answer (h : list event) (k : string) : res ty := fst (item_type (snd (after h)) (fst (after h)) k).
End It.

(** type_proxy.py:38-71: [f] is the method of the type that the stand-in for [u] calls; without that type the answer is None *)
Definition proxy_call (reg : types) (u : string) (f : ty -> res pyval) : res pyval :=
  match dget u reg with Some p => if ty_truth p then f p else Ok (VObj (ty_n p)) | None => Ok VNone end.
