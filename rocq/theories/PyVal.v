(** JSON-like Python values. Shared vocabulary; simplification: dictionary keys are strings, no floats, and objects
    that are not data are [VObj n] (truthy, no items). *)
From Verif Require Export Base.

Inductive pyval : Type :=
| VNone
| VBool (b : bool)
| VInt (z : Z)
| VStr (s : string)
| VList (l : list pyval)
| VTup (l : list pyval)
| VDict (l : list (string * pyval))
| VObj (n : nat).

Section Ind.
  Variable P : pyval -> Prop.
  Hypothesis HNone : P VNone.
  Hypothesis HBool : forall b, P (VBool b).
  Hypothesis HInt : forall z, P (VInt z).
  Hypothesis HStr : forall s, P (VStr s).
  Hypothesis HList : forall l, (forall x, In x l -> P x) -> P (VList l).
  Hypothesis HTup : forall l, (forall x, In x l -> P x) -> P (VTup l).
  Hypothesis HDict : forall l, (forall k x, In (k, x) l -> P x) -> P (VDict l).
  Hypothesis HObj : forall n, P (VObj n).

  Fixpoint pyval_ind' (v : pyval) : P v :=
    match v with
    | VNone => HNone | VBool b => HBool b | VInt z => HInt z | VStr s => HStr s | VObj n => HObj n
    | VList l => HList l ((fix go (l : list pyval) : forall x, In x l -> P x :=
        match l with
        | [] => fun x h => match h with end
        | y :: l' => fun x h => match h with or_introl e => match e with eq_refl => pyval_ind' y end | or_intror h' => go l' x h' end
        end) l)
    | VTup l => HTup l ((fix go (l : list pyval) : forall x, In x l -> P x :=
        match l with
        | [] => fun x h => match h with end
        | y :: l' => fun x h => match h with or_introl e => match e with eq_refl => pyval_ind' y end | or_intror h' => go l' x h' end
        end) l)
    | VDict l => HDict l ((fix go (l : list (string * pyval)) : forall k x, In (k, x) l -> P x :=
        match l with
        | [] => fun k x h => match h with end
        | y :: l' => fun k x h => match h with
                                  | or_introl e => match f_equal snd e in _ = w return P w with eq_refl => pyval_ind' (snd y) end
                                  | or_intror h' => go l' k x h' end
        end) l)
    end.
End Ind.

Fixpoint pyval_eq_dec (a b : pyval) {struct a} : {a = b} + {a <> b}.
Proof.
  destruct a, b; try (right; discriminate); try (left; reflexivity).
  - destruct (bool_dec b0 b); [left|right]; congruence.
  - destruct (Z.eq_dec z z0); [left|right]; congruence.
  - destruct (string_dec s s0); [left|right]; congruence.
  - destruct (list_eq_dec pyval_eq_dec l l0); [left|right]; congruence.
  - destruct (list_eq_dec pyval_eq_dec l l0); [left|right]; congruence.
  - assert (d : forall x y : string * pyval, {x = y} + {x <> y} -> True) by trivial. clear d.
    revert l0. induction l as [|[k x] l IH]; intros [|[k' x'] l0]; try (left; reflexivity); try (right; discriminate).
    destruct (string_dec k k') as [->|n]; [|right; congruence].
    destruct (pyval_eq_dec x x') as [->|n]; [|right; congruence].
    destruct (IH l0) as [e|n]; [left; congruence|right; congruence].
  - destruct (Nat.eq_dec n n0); [left|right]; congruence.
Defined.
#[global] Instance EqDec_pyval : EqDec pyval := pyval_eq_dec.

(** Python truth value *)
Definition truthy (v : pyval) : bool :=
  match v with
  | VNone => false
  | VBool b => b
  | VInt z => negb (Z.eqb z 0)
  | VStr s => negb (beq s EmptyString)
  | VList l | VTup l => match l with [] => false | _ => true end
  | VDict l => match l with [] => false | _ => true end
  | VObj _ => true
  end.

Definition is_dict (v : pyval) : bool := match v with VDict _ => true | _ => false end.
(** utils.py:340-346 *)
Definition is_mapping := is_dict.
(** utils.py:349-360: lists and tuples (deques and weak sets are not modelled) *)
Definition is_sequence (v : pyval) : bool := match v with VList _ | VTup _ => true | _ => false end.

(** every dictionary inside has one entry per key *)
Fixpoint vwf (v : pyval) : Prop :=
  match v with
  | VList l | VTup l => (fix go (l : list pyval) : Prop := match l with [] => True | x :: l' => vwf x /\ go l' end) l
  | VDict l => NoDup (map fst l) /\
      (fix go (l : list (string * pyval)) : Prop := match l with [] => True | p :: l' => vwf (snd p) /\ go l' end) l
  | _ => True
  end.
Lemma vwf_dict l : vwf (VDict l) -> NoDup (map fst l) /\ forall k x, In (k, x) l -> vwf x.
Proof.
  simpl. intros (nd & h). split; [exact nd|]. clear nd. induction l as [|[k' x'] l IH]; simpl in *; [tauto|].
  intros k x [e|i]; [injection e as -> ->; tauto|]. eapply IH; [tauto|exact i].
Qed.

(** item access [obj[key]] *)
Inductive pykey := KStr (s : string) | KInt (z : Z).
#[global] Instance EqDec_pykey : EqDec pykey.
Proof. intros [s|z] [s'|z']; try (right; discriminate); [destruct (eq_dec s s')|destruct (eq_dec z z')]; [left|right|left|right]; congruence. Defined.

Definition py_index {A} (l : list A) (z : Z) : res A :=
  let n := Z.of_nat (length l) in
  let i := if Z.ltb z 0 then (z + n)%Z else z in
  if Z.ltb i 0 then Err IndexError
  else match nth_error l (Z.to_nat i) with Some x => Ok x | None => Err IndexError end.

Definition getitem (obj : pyval) (k : pykey) : res pyval :=
  match obj, k with
  | VDict l, KStr s => match dget s l with Some v => Ok v | None => Err KeyError end
  | VDict _, KInt _ => Err KeyError
  | VList l, KInt z | VTup l, KInt z => py_index l z
  | VStr s, KInt z => do c <- py_index (list_ascii_of_string s) z; Ok (VStr (String c EmptyString))
  | _, _ => Err TypeError
  end.
