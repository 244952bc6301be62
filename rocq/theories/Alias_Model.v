(** Aliases and translated names: ngoschema/protocols/object_protocol.py.
    Simplification: '$schema' handling and the defaults filled in afterwards are not modelled. *)
From Verif Require Export PyVal.

Record names := {
  nm_props : list string;                   (* _properties *)
  nm_trans : dict string string;            (* _propertiesTranslation: translated name -> name *)
  nm_alias : dict string string;            (* _aliases: alias -> name *)
  nm_neg : dict string string;              (* _aliasesNegated *)
  nm_additional : bool;                     (* _propertiesAdditional *)
  nm_clean : string -> string               (* clean_js_name *)
}.

(** unary minus / operator.neg *)
Definition py_neg (v : pyval) : res pyval :=
  match v with
  | VInt z => Ok (VInt (- z))
  | VBool b => Ok (VInt (- (if b then 1 else 0)))
  | _ => Err TypeError
  end.

Section Names.
  Variable n : names.

  (** object_protocol.py:216-218. The names to translate form a set: [order] is the order it is gone through *)
  Definition to_translate (value : dict string pyval) : list string :=
    filter (fun k => negb (mem k (nm_props n)) && dmem k (nm_trans n)) (dkeys value).
  Definition translate1 (value : dict string pyval) (k : string) : dict string pyval :=
    match dget k value, dget k (nm_trans n) with
    | Some v, Some raw => dset raw v (ddel k value)
    | _, _ => value
    end.
  Definition translate (order : list string) (value : dict string pyval) : dict string pyval := fold_left translate1 order value.

  (** the dict comprehensions of lines 219 and 220: pop the aliases present one after the other, collect under their names *)
  Fixpoint pop_aliases (f : pyval -> res pyval) (table : dict string string) (value acc : dict string pyval)
    : res (dict string pyval * dict string pyval) :=
    match table with
    | [] => Ok (value, acc)
    | (k1, k2) :: t =>
        match dget k1 value with
        | Some v => do w <- f v; pop_aliases f t (ddel k1 value) (dset k2 w acc)
        | None => pop_aliases f t value acc
        end
    end.
  Definition dupdate (value upd : dict string pyval) : dict string pyval := fold_left (fun d p => dset (fst p) (snd p) d) upd value.
  Definition rename_aliases (f : pyval -> res pyval) (table : dict string string) (value : dict string pyval) : res (dict string pyval) :=
    do p <- pop_aliases f table value []; Ok (dupdate (fst p) (snd p)).

  (** ObjectProtocol._deserialize (205-223) up to the call of CollectionProtocol._deserialize *)
  Definition alias_deserialize (order : list string) (value : dict string pyval) : res (dict string pyval) :=
    do v2 <- rename_aliases Ok (nm_alias n) (translate order value); rename_aliases py_neg (nm_neg n) v2.

  (** ObjectProtocol._serialize (446-473) from line 453 on, on the serialised items [ret], without attribute prefix *)
  Fixpoint add_aliases (f : pyval -> res pyval) (only excludes : list string) (table : dict string string) (ret : dict string pyval)
    : res (dict string pyval) :=
    match table with
    | [] => Ok ret
    | (alias, raw) :: t =>
        if (match only with [] => false | _ => negb (mem alias only) end) || mem alias excludes then add_aliases f only excludes t ret
        else match dget raw ret with
             | Some VNone | None => add_aliases f only excludes t ret
             | Some v => do w <- f v; add_aliases f only excludes t (dset alias w ret)
             end
    end.
  Definition alias_serialize (only excludes : list string) (ret : dict string pyval) : res (dict string pyval) :=
    do r <- add_aliases Ok only excludes (nm_alias n) ret; add_aliases py_neg only excludes (nm_neg n) r.

  (** _properties_raw_trans (259-287) as computed; the cache it is kept in is modelled in Nc_Model.v *)
  Definition raw_trans (name : string) : option (string * string) :=
    if mem name (nm_props n) then Some (name, name)
    else match find (fun p => beq name (snd p) || beq name (fst p)) (nm_trans n) with
         | Some (trans, raw) => Some (raw, trans)
         | None =>
             match dget name (nm_alias n) with
             | Some raw => Some (raw, name)
             | None => match dget name (nm_neg n) with
                       | Some raw => Some (raw, name)
                       | None => if nm_additional n then Some (name, nm_clean n name) else None
                       end
             end
         end.

  Definition or_self (d : dict string string) (k : string) : string := match dget k d with Some r => r | None => k end.

  (** __getitem__ (399-411) and __setitem__ (413-434) seen through the names: where the item is stored, and whether its
      sign changes. [rt] is what [_properties_raw_trans] answers (402, 427). In __getitem__ the closure [op] looks at [key] after it
      has been replaced by the name. Every property has a descriptor (759-760), which works on the item of its own name; other items
      are kept under the key (408-411, 433-434). *)
  Definition get_key (key : string) : string := or_self (nm_alias n) (or_self (nm_neg n) key).       (* 400-401 *)
  Definition alias_get_by (rt : option (string * string)) (key : string) (d : dict string pyval) : res pyval :=
    let key1 := get_key key in
    match rt with
    | None => Err KeyError
    | Some (raw, _) =>
        if dmem raw d then
          match dget (if mem raw (nm_props n) then raw else key1) d with
          | None => Err KeyError
          | Some v => if dmem key1 (nm_neg n) then py_neg v else Ok v                               (* 399, 407 *)
          end
        else Err KeyError                                                                           (* 403-404 *)
    end.
  Definition alias_set_by (rt : option (string * string)) (key : string) (v : pyval) (d : dict string pyval) : res (dict string pyval) :=
    match (match rt with Some (raw, _) => if mem raw (nm_props n) then Some raw else None | None => None end) with
    | Some raw => do w <- (if dmem key (nm_neg n) then py_neg v else Ok v); Ok (dset raw w d)       (* 414, 428-430 *)
    | None => if nm_additional n then do w <- (if dmem key (nm_neg n) then py_neg v else Ok v); Ok (dset key w d)
              else Err KeyError                                                                     (* 431-434 *)
    end.
  Definition alias_get (key : string) (d : dict string pyval) : res pyval := alias_get_by (raw_trans (get_key key)) key d.
  Definition alias_set (key : string) (v : pyval) (d : dict string pyval) : res (dict string pyval) := alias_set_by (raw_trans key) key v d.

  (** _items_type (495-511): the name whose declared type is used for [item]; the result of line 501 is overwritten *)
  Definition type_name (item : string) : string := or_self (nm_neg n) item.
End Names.
