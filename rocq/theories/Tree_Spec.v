(** Specification vocabulary for Tree_Props. *)
From Verif Require Export Tree_Model Uri_Spec.
Local Open Scope char_scope.
Local Open Scope list_scope.

(** [Line up i l]: [l] is [i], what is above it, what is above that, and so on to the top *)
Inductive Line (up : nat -> option nat) : nat -> list nat -> Prop :=
| Line_top i : up i = None -> Line up i [i]
| Line_up i p l : up i = Some p -> Line up p l -> Line up i (i :: l).

(** names separated by dots *)
Definition dotted (ns : list str) : str := ljoin ["."] ns.
(** a component: not empty, without dot nor opening bracket *)
Definition Component (n : str) : Prop := n <> [] /\ ~ In "." n /\ ~ In "[" n.

(** a canonical name with positions, as text: a[0][1].b[0].c *)
Definition with_positions (p : str * list nat) : str := fst p ++ flat_map (fun i => "[" :: decimal i ++ ["]"]) (snd p).

(** [ValueAt o ns v]: following the properties named [ns] from [o] through objects, [v] is reached *)
Inductive ValueAt : tv -> list str -> tv -> Prop :=
| VA_here v : ValueAt v [] v
| VA_in free l n c ns v : dget n l = Some c -> ValueAt c ns v -> ValueAt (TObj free l) (n :: ns) v.

(** one path is the beginning of the other *)
Definition Comparable (p q : list str) : Prop := (exists r, q = p ++ r) \/ (exists r, p = q ++ r).

(** the simple name of an object: what follows the last colon of its member "name", or <anonymous> when it has none *)
Inductive SimpleName (l : dict str tv) : str -> Prop :=
| SN_plain n : dget (chars "name") l = Some (TText n) -> n <> [] -> ~ In ":" n -> SimpleName l n
| SN_prefixed pre n : dget (chars "name") l = Some (TText (pre ++ ":" :: n)) -> ~ In ":" n -> SimpleName l n
| SN_none : (forall s, dget (chars "name") l = Some (TText s) -> s = []) -> SimpleName l (chars "<anonymous>").

(** [Named t ns p d]: from [t], the steps [p] (keys and positions) lead to the object [d], and the objects met, the first
    and [d] included, have the simple names [ns] *)
Inductive Named : tv -> list str -> list pseg -> tv -> Prop :=
| Named_here free l n : SimpleName l n -> Named (TObj free l) [n] [] (TObj free l)
| Named_key free l n k c ns p d : SimpleName l n -> In (k, c) l -> Named c ns p d -> Named (TObj free l) (n :: ns) (StepKey k :: p) d
| Named_elem l i c ns p d : nth_error l i = Some c -> Named c ns p d -> Named (TArr l) ns (StepPos i :: p) d.
