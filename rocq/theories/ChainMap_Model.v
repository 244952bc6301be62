(** ngoschema/utils/utils.py:43-157, ReadOnlyChainMap and Context. *)
From Verif Require Export Base.

(** A map stored in a chain: a plain dictionary, or a chain map itself (utils.py:43-50, [_maps]).
    Simplification: maps are values; the [None] entries tolerated by [__iter__] only are not modelled. *)
Inductive cmap (K V : Type) : Type :=
| Plain (d : dict K V)
| Chain (ms : list (cmap K V)).
Arguments Plain {K V} d.
Arguments Chain {K V} ms.

Section ChainMap.
  Context {K V : Type} {EK : EqDec K}.
  Notation cmap := (cmap K V).

  (** utils.py:52-58 [__getitem__]: the first map not raising KeyError; [None] stands for KeyError. *)
  Fixpoint cm_lookup (k : K) (m : cmap) : option V :=
    match m with
    | Plain d => dget k d
    | Chain ms =>
        (fix go (l : list cmap) : option V :=
           match l with
           | [] => None
           | m' :: l' => match cm_lookup k m' with Some v => Some v | None => go l' end
           end) ms
    end.

  (** utils.py:52-58, as a call: value or KeyError. *)
  Definition cm_getitem (m : cmap) (k : K) : res V :=
    match cm_lookup k m with Some v => Ok v | None => Err KeyError end.

  (** utils.py:60-61 [__contains__]: any(key in m). *)
  Fixpoint cm_contains (k : K) (m : cmap) : bool :=
    match m with
    | Plain d => dmem k d
    | Chain ms => existsb (cm_contains k) ms
    end.

  (** utils.py:77-83 [__iter__]: keys map by map, each yielded once ([viewed]). *)
  Fixpoint cm_iter (m : cmap) : list K :=
    match m with
    | Plain d => dkeys d
    | Chain ms => dedup (flat_map cm_iter ms)
    end.

  (** utils.py:63-75 [reversed_keys]: maps from last to first, nested chains reversed recursively,
      plain maps in their own order. *)
  Fixpoint cm_reversed_keys (m : cmap) : list K :=
    match m with
    | Plain d => dkeys d
    | Chain ms => dedup (concat (rev (map cm_reversed_keys ms)))
    end.

  (** utils.py:85-86 [__len__]: size of set().union of the maps. *)
  Definition cm_len (m : cmap) : nat :=
    match m with
    | Plain d => length d
    | Chain ms => length (dedup (flat_map cm_iter ms))
    end.

  (** utils.py:88-89 [new_child]: kwargs first, then the maps, then the receiver's maps. *)
  Definition cm_maps (m : cmap) : list cmap :=
    match m with Plain d => [Plain d] | Chain ms => ms end.
  Definition cm_new_child (self : cmap) (maps : list cmap) (kwargs : dict K V) : cmap :=
    Chain (Plain kwargs :: maps ++ cm_maps self).

  (** utils.py:99-109 [maps_flattened] when the cache is empty. *)
  Fixpoint cm_flatten (m : cmap) : list (dict K V) :=
    match m with
    | Plain d => [d]
    | Chain ms => flat_map cm_flatten ms
    end.

  (** utils.py:111-117 [merged].  [ord] is the iteration order of a Python set, left arbitrary. *)
  Definition cm_merge_step (ord : list K -> list K) (ret : dict K V) (m : cmap) : dict K V :=
    fold_left (fun r k => match cm_lookup k m with Some v => dset k v r | None => r end)
              (ord (filter (fun k => negb (mem k (dkeys ret))) (cm_iter m))) ret.
  Definition cm_merged (ord : list K -> list K) (m : cmap) : dict K V :=
    fold_left (cm_merge_step ord) (cm_maps m) [].

  (** All plain dictionaries inside have one entry per key (true of every Python dict). *)
  Fixpoint cm_wf (m : cmap) : Prop :=
    match m with
    | Plain d => dwf d
    | Chain ms => (fix go (l : list cmap) : Prop := match l with [] => True | x :: l' => cm_wf x /\ go l' end) ms
    end.
End ChainMap.

(** * A heap of contexts (utils.py:120-157)

    A context is an object holding its own [_maps] list and the cell [_maps_flattened] (utils.py:98, 101-109);
    it is designated by its index in the heap. *)
Section Contexts.
  Context {K V : Type} {EK : EqDec K}.
  Notation cmap := (cmap K V).

  Record ctx := { c_maps : list cmap; c_flat : option (list (dict K V)) }.
  Definition heap := list ctx.

  Inductive ctx_op : Type :=
  | CreateChild (r : nat) (parents : list cmap) (local : dict K V)
  | Prepend (r : nat) (m : cmap)
  | Append (r : nat) (m : cmap)
  | Flattened (r : nat)
  | Lookup (r : nat) (k : K).

  Inductive ctx_out : Type :=
  | ORef (r : nat) | ONone | OFlat (l : list (dict K V)) | OVal (v : res V) | ONoObj.

  Fixpoint upd_nth {A} (n : nat) (x : A) (l : list A) : list A :=
    match l, n with
    | [], _ => []
    | _ :: l', 0 => x :: l'
    | y :: l', S n' => y :: upd_nth n' x l'
    end.

  Definition ctx_step (h : heap) (o : ctx_op) : heap * ctx_out :=
    match o with
    | CreateChild r parents local =>
        match nth_error h r with
        | None => (h, ONoObj)
        | Some c =>
            (* utils.py:138-139 *)
            match parents, local with
            | [], [] => (h, ORef r)
            | _, _ =>
                (* utils.py:140-142: parents = (local,) + parents if local; Context( *parents, *self._maps)
                   whose own local dict is empty and comes first (utils.py:125) *)
                let ps := match local with [] => parents | _ => Plain local :: parents end in
                (h ++ [{| c_maps := Plain [] :: ps ++ c_maps c; c_flat := None |}], ORef (length h))
            end
        end
    | Prepend r m =>      (* utils.py:144-145 *)
        match nth_error h r with
        | None => (h, ONoObj)
        | Some c => (upd_nth r {| c_maps := m :: c_maps c; c_flat := c_flat c |} h, ONone)
        end
    | Append r m =>       (* utils.py:147-148 *)
        match nth_error h r with
        | None => (h, ONoObj)
        | Some c => (upd_nth r {| c_maps := c_maps c ++ [m]; c_flat := c_flat c |} h, ONone)
        end
    | Flattened r =>      (* utils.py:99-109 with its cache *)
        match nth_error h r with
        | None => (h, ONoObj)
        | Some c =>
            match c_flat c with
            | Some l => (h, OFlat l)
            | None => let l := cm_flatten (Chain (c_maps c)) in
                      (upd_nth r {| c_maps := c_maps c; c_flat := Some l |} h, OFlat l)
            end
        end
    | Lookup r k =>       (* utils.py:52-58 *)
        match nth_error h r with
        | None => (h, ONoObj)
        | Some c => (h, OVal (cm_getitem (Chain (c_maps c)) k))
        end
    end.

  Definition ctx_run (h : heap) (os : list ctx_op) : heap := fold_left (fun h o => fst (ctx_step h o)) os h.
End Contexts.
