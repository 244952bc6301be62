(** What the schemas of a class and its ancestors say of data. *)
From Verif Require Import Vi_Model Jv_Spec.
Local Open Scope list_scope.

(** a class inherits from classes declared before it *)
Definition Declared (T : list cdecl) : Prop :=
  forall i c j, nth_error T i = Some c -> In j (cd_bases c ++ cd_ext c) -> j < i.
(** a schema has a keyword at most once *)
Definition Once (T : list cdecl) : Prop := forall i c, nth_error T i = Some c -> NoDup (map kname (cd_own c)).

Inductive Anc (T : list cdecl) : nat -> nat -> Prop :=
| anc_self i : Anc T i i
| anc_up i c j a : nth_error T i = Some c -> In j (cd_bases c ++ cd_ext c) -> Anc T j a -> Anc T i a.

(** the class or an ancestor requires, declares, matches, does not validate the name *)
Definition SaidBy (T : list cdecl) (i : nat) (P : cdecl -> Prop) : Prop := exists a c, Anc T i a /\ nth_error T a = Some c /\ P c.
Definition Requires (n : string) (c : cdecl) : Prop := exists l, In (KRequired l) (cd_own c) /\ In n l.
Definition Declares (n : string) (c : cdecl) : Prop := exists l, In (KProps l) (cd_own c) /\ In n (map fst l).
Definition Matches (search : string -> string -> bool) (n : string) (c : cdecl) : Prop :=
  exists l p, In (KPats l) (cd_own c) /\ In p (map fst l) /\ search p n = true.
Definition Skips (n : string) (c : cdecl) : Prop := In n (cd_notval c).
(** the schema of the class itself refuses further properties *)
Definition Closed (c : cdecl) : Prop := In (KMore (JBool false)) (cd_own c).

(** a Python base which is an ancestor of an extended schema, where that schema is no ancestor of a Python base *)
Definition Replaced (T : list cdecl) (c : cdecl) (b : nat) : Prop :=
  exists e, In e (cd_ext c) /\ (forall b', In b' (cd_bases c) -> ~ Anc T b' e) /\ Anc T e b.
(** the keyword of a name in force for a class: its own, or the one in force for the first Python base that has one *)
Inductive InForce (T : list cdecl) : nat -> string -> option jkw -> Prop :=
| if_own i c k : nth_error T i = Some c -> In k (cd_own c) -> InForce T i (kname k) (Some k)
| if_base i c n pre b post k : nth_error T i = Some c -> (forall k', In k' (cd_own c) -> kname k' <> n) ->
    cd_bases c = pre ++ b :: post -> ~ Replaced T c b -> InForce T b n (Some k) ->
    Forall (fun p => Replaced T c p \/ InForce T p n None) pre -> InForce T i n (Some k)
| if_none i c n : nth_error T i = Some c -> (forall k', In k' (cd_own c) -> kname k' <> n) ->
    Forall (fun p => Replaced T c p \/ InForce T p n None) (cd_bases c) -> InForce T i n None.

(** the keywords looked at beside the required and additional properties *)
Definition handled : list string := ["required"; "properties"; "propertiesAdditional"; "additionalProperties"; "type"]%string.
Definition Looked (T : list cdecl) (i : nat) (excludes : list string) (k : jkw) : Prop :=
  InForce T i (kname k) (Some k) /\ ~ In (kname k) handled /\ ~ In (kname k) excludes /\ ~ SaidBy T i (Skips (kname k)).

Section Search.
  Variable search : string -> string -> bool.
  Definition Complete (T : list cdecl) (i : nat) (d : list (string * pyval)) : Prop :=
    forall n, SaidBy T i (Requires n) -> Has d n.
  Definition Known (T : list cdecl) (i : nat) (d : list (string * pyval)) : Prop :=
    forall n, Has d n -> SaidBy T i (Declares n) \/ SaidBy T i (Matches search n).
  (** the keywords looked at hold, as the program reads them (Jv_Spec); a reference makes the others void *)
  Definition Holds (T : list cdecl) (i : nat) (excludes : list string) (d : list (string * pyval)) : Prop :=
    (exists u, Looked T i excludes (KRef u)) \/ forall k, Looked T i excludes k -> SatK search program [] k (VDict d).
End Search.
