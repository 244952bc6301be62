(** Object trees: contexts and parents (ngoschema/contexts/*.py, protocols/context.py, protocols/object_protocol.py:236-237),
    canonical names (models/instances.py:40-45), dotted access and search by canonical name
    (protocols/object_protocol.py:44-53, 323-366, 381-426). Texts are lists of characters. *)
From Verif Require Export Str_Model Ns_Model Uri_Model.
Local Open Scope char_scope.
Local Open Scope list_scope.

(** * Contexts *)
(** A container is an object (an Instance or not) or an array. *)
Inductive ckind := KObj (instance : bool) | KArr.
(** The maps of a context: the objects met, the other maps (locals, [{'this': ...}], validated data, settings) left out
    of sight. *)
Inductive cmap := MObj (n : nat) (instance : bool) | MOther.

(** protocols/collection_protocol.py:48 calls [_create_context]. object_protocol.py:236-237 adds [{'this': self}], the
    validated data and the object itself in front of the given context; utils/utils.py:119-142 puts the (empty) local map
    first. An array adds nothing: protocols/context.py:35 then calls [create_child()], which returns the context itself. *)
Definition own_context (k : ckind) (self : nat) (ctx : list cmap) : list cmap :=
  match k with
  | KObj i => MOther :: MOther :: MOther :: MObj self i :: ctx
  | KArr => ctx
  end.

(** the context in which the members of a container are made: its own, inside those of the containers around it
    (nearest first), inside the context given to the outermost one *)
Fixpoint member_context (base : list cmap) (outer : list (nat * ckind)) : list cmap :=
  match outer with
  | [] => base
  | (n, k) :: outer' => own_context k n (member_context base outer')
  end.

(** contexts/object_protocol_context.py:16: the first map that is an object other than [self] *)
Fixpoint first_object (self : nat) (ctx : list cmap) : option nat :=
  match ctx with
  | [] => None
  | MObj n _ :: ctx' => if Nat.eqb n self then first_object self ctx' else Some n
  | MOther :: ctx' => first_object self ctx'
  end.
(** contexts/instance_context.py:14-15: the first map that is an Instance other than [self] *)
Fixpoint first_instance (self : nat) (ctx : list cmap) : option nat :=
  match ctx with
  | [] => None
  | MObj n i :: ctx' => if i && negb (Nat.eqb n self) then Some n else first_instance self ctx'
  | MOther :: ctx' => first_instance self ctx'
  end.
(** [_parent] and [_parentInstance] of an object made in the context [ctx] (collection_protocol.py:48-49) *)
Definition parent_in (k : ckind) (self : nat) (ctx : list cmap) : option nat := first_object self (own_context k self ctx).
Definition instance_parent_in (k : ckind) (self : nat) (ctx : list cmap) : option nat := first_instance self (own_context k self ctx).

(** * Names and ancestors *)
Record node := {
  n_parent : option nat;            (* _parent *)
  n_iparent : option nat;           (* _parentInstance *)
  n_valid : option str;             (* the name in the validated data *)
  n_raw : option str;               (* the name in the raw data *)
  n_size : nat                      (* __len__ : number of entries of the validated data (object_protocol.py:253-254) *)
}.
Definition heap := nat -> node.

(** instances.py:44 [self._dataValidated.get('name') or self._data.get('name')]: an empty text is false *)
Definition own_name (x : node) : option str :=
  match n_valid x with Some (c :: s) => Some (c :: s) | _ => n_raw x end.
(** how a format string prints it *)
Definition shown (n : option str) : str := match n with Some s => s | None => ["N"; "o"; "n"; "e"] end.

(** instances.py:41-45. [limit]: the interpreter's recursion limit. *)
Fixpoint canonical_name (limit : nat) (h : heap) (i : nat) : res (option str) :=
  match limit with
  | 0 => Err RecursionError
  | S limit' =>
      let n := own_name (h i) in
      match n_iparent (h i) with
      | Some p => do pn <- canonical_name limit' h p; Ok (Some (shown pn ++ "." :: shown n))
      | None => Ok n
      end
  end.

(** object_protocol_context.py:20-22 [self._parent._root if self._parent else self]: an empty parent is false *)
Fixpoint root (limit : nat) (h : heap) (i : nat) : res nat :=
  match limit with
  | 0 => Err RecursionError
  | S limit' =>
      match n_parent (h i) with
      | None => Ok i
      | Some p => if Nat.eqb (n_size (h p)) 0 then Ok i else root limit' h p
      end
  end.

(** * [split_cname] (object_protocol.py:44-53) *)
Inductive seg := SName (s : str) | SIdx (z : Z).
Fixpoint indices (l : list str) : res (list seg) :=
  match l with
  | [] => Ok []
  | w :: l' => match parse_int (strip ["]"] w) with
               | Some z => do r <- indices l'; Ok (SIdx z :: r)
               | None => Err ValueError
               end
  end.
Definition split_part (part : str) : res (list seg) :=                 (* 48-51 *)
  match split_char "[" part with
  | [] => Ok []
  | n :: idx => do r <- indices idx; Ok (SName n :: r)
  end.
Fixpoint split_parts (ps : list str) : res (list seg) :=
  match ps with [] => Ok [] | p :: ps' => do a <- split_part p; do b <- split_parts ps'; Ok (a ++ b) end.
(** 52-53: when the first component is empty, [cns.pop(0)] is returned: the empty text, not the rest of the list *)
Inductive splitted := Parts (l : list seg) | EmptyText.
Definition split_cname (cname : str) : res splitted :=
  do cns <- split_parts (split_char "." cname);
  Ok (match cns with SName [] :: _ => EmptyText | _ => Parts cns end).

(** * Dotted access (object_protocol.py:381-426) *)
(** A tree of objects, arrays and texts. [free]: the names an object accepts although they are not declared (and not
    required): reading one that is absent gives None (300-321); [TOther]: anything else Python may find, such as a method.
    Simplifications: no aliases (Alias_Model), values are stored as given (conversion: Types_Model), leaves are texts. *)
Inductive tv :=
| TNone
| TText (s : str)
| TObj (free : str -> bool) (l : dict str tv)
| TArr (l : list tv)
| TOther.

Section Access.
  (** the names Python finds on any object of the library: methods and other class attributes *)
  Variable reserved : str -> bool.

  (** [cur[p] if not hasattr(cur, p) else getattr(cur, p)] (390, 420). [hasattr] with an integer raises TypeError. *)
  Definition follow1 (cur : tv) (p : seg) : res tv :=
    match p with
    | SIdx _ => Err TypeError
    | SName s =>
        if reserved s then Ok TOther else
        match cur with
        | TObj free l => match dget s l with Some v => Ok v | None => if free s then Ok TNone else Err KeyError end
        | TArr _ | TText _ | TNone | TOther => Err TypeError
        end
    end.
  (** 389-393: stops at the first None *)
  Fixpoint follow_all (cur : tv) (ps : list seg) : res tv :=
    match ps with
    | [] => Ok cur
    | p :: ps' => do c <- follow1 cur p; match c with TNone => Ok TNone | _ => follow_all c ps' end
    end.
  (** 381-395 and 400-411, on an object *)
  Definition get_key (parent : tv) (o : tv) (key : str) : res tv :=
    match key with
    | [] => Ok parent                                                                  (* 382-383 *)
    | _ =>
        if mem "." key then
          do parts <- split_cname key;                                                 (* 385: outside the try *)
          match parts with
          | EmptyText => Ok o                                                          (* nothing to iterate on *)
          | Parts ps => match follow_all o ps with Ok v => Ok v | Err _ => Err KeyError end
          end
        else match o with
             | TObj _ l => match dget key l with Some v => Ok v | None => Err KeyError end
             | _ => Err TypeError
             end
    end.

  (** [cur[name] = value] on one object (427-435), with a name without dot *)
  Definition put1 (cur : tv) (p : seg) (v : tv) : res tv :=
    match p, cur with
    | SName s, TObj free l => if dmem s l || free s then Ok (TObj free (dset s v l)) else Err KeyError
    | _, _ => Err TypeError
    end.
  (** 415-426: follow all but the last part, assign there; the tree is returned with the changed object in its place *)
  Fixpoint put_all (cur : tv) (ps : list seg) (v : tv) : res tv :=
    match ps with
    | [] => Err IndexError
    | [p] => put1 cur p v
    | p :: ps' =>
        do c <- follow1 cur p;
        match c with
        | TNone => Ok cur                                                              (* 421-422: returns silently *)
        | _ => do c' <- put_all c ps' v;
               Ok (match p, cur with SName s, TObj free l => if reserved s then cur else TObj free (dset s c' l) | _, _ => cur end)
        end
    end.
  Definition put_key (o : tv) (key : str) (v : tv) : res tv :=
    if mem "." key then
      do parts <- split_cname key;
      match parts with
      | EmptyText => Err KeyError                                                      (* ''[-1] : IndexError, caught *)
      | Parts ps => match put_all o ps v with Ok o' => Ok o' | Err _ => Err KeyError end
      end
    else put1 o (SName key) v.
End Access.

(** * Search by canonical name (object_protocol.py:323-366) *)
Definition name_field : str := ["n"; "a"; "m"; "e"].
Definition anonymous : str := chars "<anonymous>".
(** [(cur.get('name') or '<anonymous>').rsplit(':')[-1]] *)
Definition simple_name (l : dict str tv) : str :=
  match dget name_field l with
  | Some (TText (c :: s)) => last (split_char ":" (c :: s)) []
  | _ => anonymous
  end.
Fixpoint is_prefixb {A} {E : EqDec A} (p l : list A) : bool :=
  match p, l with
  | [], _ => true
  | x :: p', y :: l' => beq x y && is_prefixb p' l'
  | _, [] => false
  end.
Inductive pseg := StepKey (s : str) | StepPos (n : nat).
(** 326-342: the objects found with their paths, in the order of the generator *)
Fixpoint find_named (cn : list str) (cur : tv) (cur_cn : list str) (path : list pseg) : list (tv * list pseg) :=
  (match cn with [] => [(cur, path)] | _ => [] end) ++
  match cur with
  | TObj _ l =>
      let cn2 := cur_cn ++ [simple_name l] in
      if is_prefixb cn2 cn then
        (if beq cn2 cn then [(cur, path)] else []) ++
        flat_map (fun kv => match snd kv with
                            | TObj _ _ | TArr _ => find_named cn (snd kv) cn2 (path ++ [StepKey (fst kv)])
                            | _ => []
                            end) l
      else []
  | TArr l =>
      (fix elems (i : nat) (l : list tv) : list (tv * list pseg) :=
         match l with [] => [] | v :: l' => find_named cn v cur_cn (path ++ [StepPos i]) ++ elems (S i) l' end) 0 l
  | _ => []
  end.

(** 344-358 [resolve_cname_path], for an object with the entries [l]. The argument is not used: [cname] is rebuilt from
    the object itself. [UserError 0]: the plain Exception of line 358. *)
Definition resolve_cname_path (instance : bool) (self : tv) (cname : list str) : res (list pseg) :=
  match self with
  | TObj _ l =>
      if instance then
        match dget name_field l with
        | Some (TText n) =>
            let lst := last (split_char ":" n) [] in
            let cname' := [n; lst] in
            (fix loop (ds : list (tv * list pseg)) : res (list pseg) :=
               match ds with
               | [] => Err (UserError 0)
               | (d, p) :: ds' =>
                   match d with
                   | TObj _ ld =>
                       if dmem lst ld || beq (simple_name ld) lst then Ok (p ++ [StepKey lst])
                       else match find_named cname' d [] p with (_, p2) :: _ => Ok p2 | [] => loop ds' end
                   | _ => Err AttributeError
                   end
               end) (find_named [n] self [] [])
        | _ => Err AttributeError                                                      (* None.split *)
        end
      else Err IndexError                                                              (* cname[-1] of an empty list *)
  | _ => Err AttributeError
  end.
