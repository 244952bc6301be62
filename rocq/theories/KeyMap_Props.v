(** C05: key-normalising dictionaries. *)
From Verif Require Import KeyMap_Model KeyMap_Spec KeyMap_Proofs.

Theorem keymap_refines_map : forall (K Q V : Type) (EQ : EqDec Q) (norm : K -> Q) (os : list (@km_op K V)),
  SRun norm (fun _ => None) os (snd (km_run norm [] os)).
Proof. intros K Q V EQ norm os. exact (km_run_refines norm os [] (dwf_nil Q V)). Qed.
Print Assumptions keymap_refines_map.

Theorem keymap_one_entry_per_key : forall (K Q V : Type) (EQ : EqDec Q) (norm : K -> Q) (os : list (@km_op K V)),
  NoDup (map fst (fst (km_run norm [] os))).
Proof. intros K Q V EQ norm os. exact (km_run_wf norm os [] (dwf_nil Q V)). Qed.
Print Assumptions keymap_one_entry_per_key.

Theorem keymap_init_is_sets : forall (K Q V : Type) (EQ : EqDec Q) (norm : K -> Q) (items : list (K * V)),
  km_init norm items = fst (km_run norm [] (map (fun p => KSet (fst p) (snd p)) items)).
Proof. intros K Q V EQ norm items. exact (km_init_as_sets norm items). Qed.
Print Assumptions keymap_init_is_sets.

Theorem keymap_variants_share_entry : forall (K Q V : Type) (EQ : EqDec Q) (norm : K -> Q) (os : list (@km_op K V)) k1 k2 v,
  norm k1 = norm k2 ->
  snd (km_step norm (fst (km_step norm (fst (km_run norm [] os)) (KSet k1 v))) (KGet k2)) = RVal (Ok v).
Proof. intros K Q V EQ norm os k1 k2 v. exact (km_variants norm _ k1 k2 v). Qed.
Print Assumptions keymap_variants_share_entry.

(** every key iterated from a case-insensitive dictionary can be looked up *)
Theorem case_insensitive_iterated_found : forall (V : Type) (os : list (@km_op string V)) q,
  In q (map fst (fst (km_run str_lower [] os))) ->
  exists v, snd (km_step str_lower (fst (km_run str_lower [] os)) (KGet q)) = RVal (Ok v).
Proof. intros V os q. exact (km_iterated_found str_lower str_lower_idem os q). Qed.
Print Assumptions case_insensitive_iterated_found.

Example case_insensitive_ex :
  snd (km_run str_lower [] [KSet "Content-Type" 1; KSet "content-TYPE" 2; KSet "b" 3; KGet "CONTENT-type"; KLen;
                            KDel "B"; KContains "b"; KDel "b"]%string)
  = [RUnit (Ok tt); RUnit (Ok tt); RUnit (Ok tt); RVal (Ok 2); RNat 2; RUnit (Ok tt); RBool false; RUnit (Err KeyError)].
Proof. vm_compute. reflexivity. Qed.

(** two names differ only by the case of letters *)
Definition letters : list (ascii * ascii) :=
  [("A","a");("B","b");("C","c");("D","d");("E","e");("F","f");("G","g");("H","h");("I","i");("J","j");("K","k");("L","l");("M","m");
   ("N","n");("O","o");("P","p");("Q","q");("R","r");("S","s");("T","t");("U","u");("V","v");("W","w");("X","x");("Y","y");("Z","z")]%char.
Inductive CaseVariant : string -> string -> Prop :=
| CV_nil : CaseVariant EmptyString EmptyString
| CV_same c s t : CaseVariant s t -> CaseVariant (String c s) (String c t)
| CV_up a b s t : In (a, b) letters -> CaseVariant s t -> CaseVariant (String a s) (String b t)
| CV_down a b s t : In (a, b) letters -> CaseVariant s t -> CaseVariant (String b s) (String a t).

Lemma lower_table : forall c d, lower_ascii c = lower_ascii d <-> c = d \/ In (c, d) letters \/ In (d, c) letters.
Proof.
  assert (T : forallb (fun p => Bool.eqb (beq (lower_ascii (fst p)) (lower_ascii (snd p))) (beq (fst p) (snd p) || mem p letters || mem (snd p, fst p) letters))
    (list_prod (map ascii_of_nat (seq 0 256)) (map ascii_of_nat (seq 0 256))) = true) by (vm_compute; reflexivity).
  rewrite forallb_forall in T. intros c d.
  assert (A : forall x, In x (map ascii_of_nat (seq 0 256))).
  { intros x. apply in_map_iff. exists (nat_of_ascii x). split; [apply ascii_nat_embedding|]. apply in_seq. pose proof (nat_ascii_bounded x). lia. }
  specialize (T (c, d) (in_prod _ _ _ _ (A c) (A d))). cbn [fst snd] in T. apply Bool.eqb_prop in T.
  assert (B : lower_ascii c = lower_ascii d <-> beq (lower_ascii c) (lower_ascii d) = true) by (split; apply beq_true).
  rewrite B, T, !orb_true_iff, !mem_In, beq_true. tauto.
Qed.
Lemma str_lower_variant : forall s t, str_lower s = str_lower t <-> CaseVariant s t.
Proof.
  induction s as [|c s IH]; intros [|d t]; cbn [str_lower]; split; intros h; try discriminate; try (inversion h; fail); try reflexivity; try exact CV_nil.
  - injection h as h1 h2. apply IH in h2. apply lower_table in h1. destruct h1 as [->|[h1|h1]]; [apply CV_same|apply CV_up|apply CV_down]; assumption.
  - assert (lower_ascii c = lower_ascii d /\ CaseVariant s t) as (-> & v).
    { inversion h; subst; (split; [|assumption]); apply lower_table; tauto. }
    f_equal. apply IH. exact v.
Qed.
(** in a case-insensitive dictionary two names designate the same entry exactly when they differ only by case *)
Theorem case_insensitive_entries : forall (V : Type) (os : list (@km_op string V)) k1 k2 v,
  let d := fst (km_run str_lower [] os) in
  (CaseVariant k1 k2 -> snd (km_step str_lower (fst (km_step str_lower d (KSet k1 v))) (KGet k2)) = RVal (Ok v)) /\
  (~ CaseVariant k1 k2 -> snd (km_step str_lower (fst (km_step str_lower d (KSet k1 v))) (KGet k2)) = snd (km_step str_lower d (KGet k2))).
Proof.
  intros V os k1 k2 v d. rewrite <- str_lower_variant. cbn [km_step fst snd]. rewrite dget_dset.
  destruct (eq_dec (str_lower k2) (str_lower k1)) as [e|n].
  - split; [reflexivity|]. intros c. exfalso. apply c. symmetry. exact e.
  - split; [|reflexivity]. intros c. exfalso. apply n. symmetry. exact c.
Qed.
Print Assumptions case_insensitive_entries.
Example case_variant_ex : CaseVariant "Zip-cODE" "zIP-code" /\ ~ CaseVariant "a" "b".
Proof. rewrite <- !str_lower_variant. split; [reflexivity|discriminate]. Qed.
