From Verif Require Import KeyMap_Model KeyMap_Spec.

Section Proofs.
  Context {K Q V : Type} {EQ : EqDec Q}.
  Variable norm : K -> Q.

  Definition km_abs (d : dict Q V) : Q -> option V := fun q => dget q d.

  Lemma km_domain (d : dict Q V) : dwf d -> Domain (km_abs d) (dkeys d).
  Proof. intros wf. split; [exact wf|]. intros q. unfold km_abs. rewrite <- dmem_In. unfold dmem.
         destruct (dget q d); split; congruence. Qed.

  Lemma km_step_wf (d : dict Q V) o : dwf d -> dwf (fst (km_step norm d o)).
  Proof. intros wf. destruct o as [k v|k|k|k| |]; simpl; try exact wf; [apply dwf_dset, wf|].
         destruct (dmem (norm k) d); simpl; [apply dwf_ddel|]; exact wf. Qed.

  Lemma km_step_refines (d : dict Q V) o : dwf d ->
    SStep norm (km_abs d) o (km_abs (fst (km_step norm d o))) (snd (km_step norm d o)).
  Proof.
    intros wf. destruct o as [k v|k|k|k| |]; simpl.
    - apply S_set; unfold km_abs; [apply dget_dset_same|]. intros q n. apply dget_dset_other. exact n.
    - destruct (dget (norm k) d) as [v|] eqn:e; [apply S_get|apply S_get_err]; exact e.
    - unfold dmem. destruct (dget (norm k) d) as [v|] eqn:e; simpl.
      + apply (S_del norm) with v; unfold km_abs; [exact e| |].
        * rewrite dget_ddel. destruct (eq_dec (norm k) (norm k)); congruence.
        * intros q n. rewrite dget_ddel. destruct (eq_dec q (norm k)); congruence.
      + apply S_del_err. exact e.
    - unfold dmem. destruct (dget (norm k) d) as [v|] eqn:e; [eapply S_in|apply S_notin]; exact e.
    - replace (length d) with (length (dkeys d)) by apply map_length. apply S_len, km_domain, wf.
    - apply S_iter, km_domain, wf.
  Qed.

  Lemma km_run_refines (os : list km_op) : forall d : dict Q V, dwf d -> SRun norm (km_abs d) os (snd (km_run norm d os)).
  Proof.
    induction os as [|o os IH]; intros d wf; simpl; [constructor|].
    econstructor; [apply km_step_refines, wf|]. apply IH, km_step_wf, wf.
  Qed.

  Lemma km_run_wf (os : list km_op) : forall d : dict Q V, dwf d -> dwf (fst (km_run norm d os)).
  Proof. induction os as [|o os IH]; intros d wf; simpl; [exact wf|]. apply IH, km_step_wf, wf. Qed.

  Lemma km_init_wf (items : list (K * V)) : dwf (km_init norm items).
  Proof.
    unfold km_init. assert (g : forall d, dwf d -> dwf (fold_left (fun d p => dset (norm (fst p)) (snd p) d) items d)).
    { induction items as [|p items IH]; intros d wf; simpl; [exact wf|]. apply IH, dwf_dset, wf. }
    apply g, dwf_nil.
  Qed.

  (** initialisation is the same as setting the items in turn *)
  Lemma km_init_as_sets (items : list (K * V)) :
    km_init norm items = fst (km_run norm [] (map (fun p => KSet (fst p) (snd p)) items)).
  Proof.
    unfold km_init. generalize (@nil (Q * V)). induction items as [|p items IH]; intros d; simpl; [reflexivity|]. apply IH.
  Qed.

  Lemma km_variants (d : dict Q V) k1 k2 v : norm k1 = norm k2 ->
    snd (km_step norm (fst (km_step norm d (KSet k1 v))) (KGet k2)) = RVal (Ok v).
  Proof. intros e. simpl. rewrite <- e, dget_dset_same. reflexivity. Qed.
End Proofs.

Section Idem.
  Context {Q V : Type} {EQ : EqDec Q}.
  Variable norm : Q -> Q.
  Hypothesis idem : forall q, norm (norm q) = norm q.

  Definition normalised (d : dict Q V) : Prop := forall q, In q (dkeys d) -> norm q = q.

  Lemma km_step_normalised (d : dict Q V) o : normalised d -> normalised (fst (km_step norm d o)).
  Proof.
    intros h. destruct o as [k v|k|k|k| |]; simpl; try exact h.
    - intros q i. apply In_dkeys_dset in i. destruct i as [->|i]; auto.
    - destruct (dmem (norm k) d); simpl; [|exact h]. intros q i. rewrite dkeys_ddel in i. apply filter_In in i. apply h. tauto.
  Qed.
  Lemma km_run_normalised (os : list km_op) : forall d : dict Q V, normalised d -> normalised (fst (km_run norm d os)).
  Proof. induction os as [|o os IH]; intros d h; simpl; [exact h|]. apply IH, km_step_normalised, h. Qed.

  Lemma km_iterated_found (os : list km_op) (q : Q) :
    In q (dkeys (fst (km_run norm (@nil (Q * V)) os))) ->
    exists v, snd (km_step norm (fst (km_run norm [] os)) (KGet q)) = RVal (Ok v).
  Proof.
    intros i. simpl. rewrite (km_run_normalised os [] (fun q h => match h with end) q i).
    destruct (dkeys_dget _ _ i) as (v & e). rewrite e. eauto.
  Qed.
End Idem.

Lemma lower_ascii_idem c : lower_ascii (lower_ascii c) = lower_ascii c.
Proof. destruct c as [[] [] [] [] [] [] [] []]; vm_compute; reflexivity. Qed.
Lemma str_lower_idem s : str_lower (str_lower s) = str_lower s.
Proof. induction s as [|c s IH]; simpl; [reflexivity|]. rewrite lower_ascii_idem, IH. reflexivity. Qed.
