(** What the schema shown by a type is expected to hold. *)
From Verif Require Import Base PyVal Rs_Model.
Local Open Scope string_scope. Local Open Scope list_scope.

(** a keyword of an instance: the one it was given, else the one of its class *)
Definition given (own cls : keywords) (k : string) : option shown := match dget k own with Some v => Some v | None => dget k cls end.

(** an item type as it stands in the schema of an array: by the schema it shows itself, or as it is when it is a constant or a class *)
Definition item_shown (i : ty) : shown :=
  match i with
  | TScalar _ _ _ => SSchema (show false i)
  | TConst n _ _ => SItself n
  | TArray n is_class _ _ _ _ _ _ _ _ _ | TObject n is_class _ _ _ _ _ _ => if is_class then SItself n else SSchema (show false i)
  end.

(** the keywords of arrays and of objects, when they have something to say *)
Definition array_keyword (is_list : bool) (items : list ty) (minI maxI : Z) (unique split : bool) (delim k : string) : option shown :=
  if beq k "items" then
    match is_list, items with
    | _, [] => None
    | true, _ => Some (SListed (map item_shown items))
    | false, TConst _ false _ :: _ => None                                 (* the constant false *)
    | false, i :: _ => Some (item_shown i)
    end
  else if beq k "minItems" then (if beq minI 0%Z then None else Some (SVal (VInt minI)))
  else if beq k "maxItems" then (if beq maxI 0%Z then None else Some (SVal (VInt maxI)))
  else if beq k "uniqueItems" then (if unique then Some (SVal (VBool true)) else None)
  else if beq k "splitString" then (if split then Some (SVal (VBool true)) else None)
  else if beq k "strDelimiter" then (if split then Some (SVal (VStr delim)) else None)
  else None.
Definition object_keyword (required readOnly : list string) (props : list (string * ty)) (additional : bool) (k : string) : option shown :=
  if beq k "type" then Some (SVal (VStr "object"))
  else if beq k "required" then match required with [] => None | _ => Some (SListed (map (fun s => SVal (VStr s)) required)) end
  else if beq k "readOnly" then match readOnly with [] => None | _ => Some (SListed (map (fun s => SVal (VStr s)) readOnly)) end
  else if beq k "properties" then match props with [] => None | _ => Some (SSchema (map (fun p => (fst p, SSchema (show true (snd p)))) props)) end
  else if beq k "additionalProperties" then (if additional then None else Some (SVal (VBool false)))
  else None.

(** the types a schema is made into: instances of a class made for it, constants, classes *)
Inductive Built : ty -> Prop :=
| built_scalar n cls : Built (TScalar n cls [])
| built_const n b cls : Built (TConst n b cls)
| built_array n cls own l its a b u s d : Built (TArray n true cls own l its a b u s d)
| built_object n cls own r ro ps ad : Built (TObject n true cls own r ro ps ad).

(** a schema without a type standing in it *)
Inductive Plain : shown -> Prop :=
| plain_val v : Plain (SVal v)
| plain_schema m : (forall k s, In (k, s) m -> Plain s) -> Plain (SSchema m)
| plain_list l : (forall s, In s l -> Plain s) -> Plain (SListed l).
Definition AllPlain (m : keywords) : Prop := forall k s, In (k, s) m -> Plain s.

(** types whose arrays have instances of types for items, all the way down; [by_class] as in [show] *)
Inductive Clean : bool -> ty -> Prop :=
| clean_scalar b n cls own : AllPlain cls -> AllPlain own -> Clean b (TScalar n cls own)
| clean_const b n tr cls : AllPlain cls -> Clean b (TConst n tr cls)
| clean_array b n c cls own l its mi ma u s d : AllPlain cls -> AllPlain own -> b = false \/ c = true ->
    (forall i, In i its -> exists m, item_shown i = SSchema m) -> (forall i, In i its -> Clean false i) -> Clean b (TArray n c cls own l its mi ma u s d)
| clean_object b n c cls own r ro ps ad : AllPlain cls -> AllPlain own -> (forall k t, In (k, t) ps -> Clean true t) -> Clean b (TObject n c cls own r ro ps ad).
