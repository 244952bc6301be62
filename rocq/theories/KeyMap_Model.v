(** ngoschema/utils/utils.py:160-206, _KeyModifierMapping, CaseInsensitiveDict. *)
From Verif Require Export Base.

Section KeyMap.
  Context {K Q V : Type} {EQ : EqDec Q}.
  (** [key_modifier] (utils.py:162-165), arbitrary *)
  Variable norm : K -> Q.

  Inductive km_op : Type :=
  | KSet (k : K) (v : V) | KGet (k : K) | KDel (k : K) | KContains (k : K) | KLen | KIter.
  Inductive km_out : Type :=
  | RUnit (r : res unit) | RVal (r : res V) | RBool (b : bool) | RNat (n : nat) | RKeys (l : list Q).

  (** utils.py:173-189, [_dict] is the only state *)
  Definition km_step (d : dict Q V) (o : km_op) : dict Q V * km_out :=
    match o with
    | KSet k v => (dset (norm k) v d, RUnit (Ok tt))                                          (* 176-177 *)
    | KGet k => (d, RVal (match dget (norm k) d with Some v => Ok v | None => Err KeyError end))  (* 173-174 *)
    | KDel k => if dmem (norm k) d then (ddel (norm k) d, RUnit (Ok tt)) else (d, RUnit (Err KeyError)) (* 179-180 *)
    | KContains k => (d, RBool (dmem (norm k) d))                                              (* 182-183 *)
    | KLen => (d, RNat (length d))                                                             (* 188-189 *)
    | KIter => (d, RKeys (dkeys d))                                                            (* 185-186 *)
    end.

  Fixpoint km_run (d : dict Q V) (os : list km_op) : dict Q V * list km_out :=
    match os with
    | [] => (d, [])
    | o :: os' => let p := km_step d o in let r := km_run (fst p) os' in (fst r, snd p :: snd r)
    end.

  (** utils.py:167-171 [__init__]: the items of a plain dictionary, one by one *)
  Definition km_init (items : list (K * V)) : dict Q V :=
    fold_left (fun d p => dset (norm (fst p)) (snd p) d) items [].
End KeyMap.
Arguments KSet {K V}. Arguments KGet {K V}. Arguments KDel {K V}. Arguments KContains {K V}.
Arguments KLen {K V}. Arguments KIter {K V}.
Arguments RUnit {Q V}. Arguments RVal {Q V}. Arguments RBool {Q V}. Arguments RNat {Q V}. Arguments RKeys {Q V}.

(** utils.py:198-199 [key.lower()], on ASCII letters (simplification: no unicode case mapping). *)
Definition lower_ascii (c : ascii) : ascii :=
  let n := nat_of_ascii c in
  if (65 <=? n) && (n <=? 90) then ascii_of_nat (n + 32) else c.
Fixpoint str_lower (s : string) : string :=
  match s with EmptyString => EmptyString | String c s' => String (lower_ascii c) (str_lower s') end.
