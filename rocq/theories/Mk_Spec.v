(** Which instance a session keeps under a key: the one of the first repository, among those of a subclass of the class asked for, that has the key. *)
From Verif Require Import Base Repo_Model.
Local Open Scope list_scope.

Definition Kept (sub : nat -> nat -> bool) (s : list (nat * repo)) (c : nat) (ks : list kval) (j : nat) : Prop :=
  exists pre kc r post, s = pre ++ (kc, r) :: post /\ sub kc c = true /\ dget ks (catalog r) = Some j /\
    forall kc' r', In (kc', r') pre -> sub kc' c = true -> dget ks (catalog r') = None.
