(** C06: hierarchical registries. *)
From Verif Require Import Registry_Model Registry_Spec Registry_Proofs.

(** registering reaches the registry and all its ancestors, and nothing else changes *)
Theorem registry_register_propagates : forall (K V : Type) (EK : EqDec K) (st : store K V) (r : nat) (k : K) (v : V),
  store_wf st -> r < length st ->
  exists st', register st r k v = Ok st' /\
    (forall q, Ancestor st r q -> reg_get st' q k = Some v) /\
    (forall q k', k' <> k \/ ~ Ancestor st r q -> reg_get st' q k' = reg_get st q k') /\
    (forall q, option_map r_parents (nth_error st' q) = option_map r_parents (nth_error st q)).
Proof. intros K V EK st r k v. exact (register_post st r k v). Qed.
Print Assumptions registry_register_propagates.

(** unregistering succeeds exactly when every ancestor holds the key and each is reached in one way only;
    it then removes the key from all of them and changes nothing else; otherwise it raises KeyError *)
Theorem registry_unregister_iff : forall (K V : Type) (EK : EqDec K) (st : store K V) (r : nat) (k : K),
  store_wf st -> r < length st ->
  let st' := fst (unregister st r k) in let out := snd (unregister st r k) in
  (out = Ok tt \/ out = Err KeyError) /\
  (out = Ok tt <-> TreeLike st r /\ forall q, Ancestor st r q -> reg_get st q k <> None) /\
  (out = Ok tt -> (forall q, Ancestor st r q -> reg_get st' q k = None) /\
                  (forall q k', k' <> k \/ ~ Ancestor st r q -> reg_get st' q k' = reg_get st q k')).
Proof. intros K V EK st r k. exact (unregister_char st r k). Qed.
Print Assumptions registry_unregister_iff.

(** after any program that creates registries and registers values, a registry holds, for each key, the value of
    the last registration made on it or on one of its descendants *)
Theorem registry_holds_last_registration : forall (K V : Type) (EK : EqDec K) (os : list (@reg_op K V)),
  ValidOps 0 os -> exists st, reg_run os = Ok st /\
    forall q k, (forall v, reg_get st q k = Some v -> LastRegistered st os q k v) /\
                (reg_get st q k = None -> forall r v, In (RReg r k v) os -> ~ Ancestor st r q).
Proof. intros K V EK os val. destruct (reg_run_hist os val) as (st & e & _ & _ & h). exists st. exact (conj e h). Qed.
Print Assumptions registry_holds_last_registration.

(** Finding: with two parents sharing an ancestor, unregister raises KeyError although every ancestor holds the
    key (utils.py:236-239), and the deletions already done stay done. *)
Definition diamond : list (@reg_op string nat) := [RNew []; RNew [0]; RNew [0]; RNew [1; 2]; RReg 3 "k" 7]%string.
Theorem registry_unregister_diamond_refuted : exists st, reg_run diamond = Ok st /\
  (forall q, q < 4 -> reg_get st q "k"%string = Some 7) /\
  snd (unregister st 3 "k"%string) = Err KeyError /\ reg_get (fst (unregister st 3 "k"%string)) 3 "k"%string = None.
Proof.
  exists (match reg_run diamond with Ok st => st | Err _ => [] end). repeat split.
  intros q lt. destruct q as [|[|[|[|q]]]]; [reflexivity..|]. exfalso. lia.
Qed.
Print Assumptions registry_unregister_diamond_refuted.

(** the hypotheses are met by a three level chain *)
Definition chain3 : list (@reg_op string nat) := [RNew []; RNew [0]; RNew [1]; RReg 2 "a" 1; RReg 0 "b" 2; RReg 1 "a" 3]%string.
Example chain3_ok : ValidOps 0 chain3 /\ exists st, reg_run chain3 = Ok st /\
  map (fun q => reg_get st q "a"%string) [0; 1; 2] = [Some 3; Some 3; Some 1] /\ snd (unregister st 2 "a"%string) = Ok tt.
Proof. split; [simpl; intuition (subst; lia)|]. eexists. repeat split. Qed.
