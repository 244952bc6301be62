(** C53: temporary changes of directory and of class. *)
From Verif Require Import Base With_Model.
Local Open Scope list_scope.

Section Run.
  Variable mro : nat -> list nat.
  Notation run := (run mro).

  (** However the block ends, the directory is the one before and the outcome is the block's, as long as that directory exists. *)
  Theorem directory_restored : forall d body s, In (cwd s) (present s) -> In d (present s) ->
    let inside := run body {| cwd := d; present := present s; w_cls := w_cls s |} in
    In (cwd s) (present (snd inside)) ->
    fst (run (WithDir d body) s) = fst inside /\ cwd (snd (run (WithDir d body) s)) = cwd s /\
    present (snd (run (WithDir d body) s)) = present (snd inside) /\ w_cls (snd (run (WithDir d body) s)) = w_cls (snd inside).
  Proof.
    intros d body s hc hd inside hp. cbn [With_Model.run]. apply (mem_In EqDec_nat) in hc. rewrite hc. cbn [negb]. unfold chdir at 1 3 5 7. apply (mem_In EqDec_nat) in hd. rewrite hd.
    fold inside. destruct inside as [r s2]. cbn [snd fst] in *. unfold chdir. apply (mem_In EqDec_nat) in hp. rewrite hp. cbn. auto.
  Qed.
  (** A block on a missing directory raises and changes nothing. *)
  Theorem directory_missing : forall d body s, ~ In d (present s) -> run (WithDir d body) s = (Err not_found, s).
  Proof.
    intros d body s n. cbn [With_Model.run]. destruct (negb (mem (cwd s) (present s))); [reflexivity|]. unfold chdir. apply (mem_not_In EqDec_nat) in n. rewrite n. reflexivity.
  Qed.

  (** a program that removes no directory and changes directory through blocks only, but does whatever else, at any depth *)
  Fixpoint OnlyBlocks (p : prog) : Prop :=
    match p with
    | Chdir _ | Rmdir _ => False
    | Then a b | TryExcept a b => OnlyBlocks a /\ OnlyBlocks b
    | WithDir _ b | WithCast _ _ b => OnlyBlocks b
    | _ => True
    end.
  Theorem directory_nesting : forall p s, OnlyBlocks p -> cwd (snd (run p s)) = cwd s /\ present (snd (run p s)) = present s.
  Proof.
    induction p as [| | | |i c|a IHa b IHb|a IHa b IHb|d b IHb|i c b IHb]; intros s h; cbn [OnlyBlocks] in h; try contradiction; try (split; reflexivity); cbn [With_Model.run].
    - destruct h as [ha hb]. pose proof (IHa s ha) as [e1 e2]. destruct (run a s) as [[u|e] s1]; cbn [snd] in *; [|auto]. destruct (IHb s1 hb). split; congruence.
    - destruct h as [ha hb]. pose proof (IHa s ha) as [e1 e2]. destruct (run a s) as [[u|e] s1]; cbn [snd] in *; [auto|]. destruct (IHb s1 hb). split; congruence.
    - destruct (mem (cwd s) (present s)) eqn:hc; [|split; reflexivity]. cbn [negb]. unfold chdir at 1 3. destruct (mem d (present s)); [|split; reflexivity].
      pose proof (IHb {| cwd := d; present := present s; w_cls := w_cls s |} h) as [e1 e2]. destruct (run b {| cwd := d; present := present s; w_cls := w_cls s |}) as [r s2]. cbn [snd present] in *.
      unfold chdir. rewrite e2, hc. split; reflexivity.
    - destruct (negb (mem c (mro (class_of s i)))); [split; reflexivity|]. pose proof (IHb (set_class i c s) h) as [e1 e2]. destruct (run b (set_class i c s)) as [[u|e] s2]; cbn in *; auto.
  Qed.

  (** A cast block that ends normally gives the instance its class back; other instances have the class the block left them. *)
  Theorem cast_restored : forall i c body s s', run (WithCast i c body) s = (Ok tt, s') ->
    class_of s' i = class_of s i /\ In c (mro (class_of s i)) /\
    exists s2, run body (set_class i c s) = (Ok tt, s2) /\ forall j, j <> i -> class_of s' j = class_of s2 j.
  Proof.
    intros i c body s s' h. cbn [With_Model.run] in h. destruct (mem_spec _ c (mro (class_of s i))) as [m|m]; [|discriminate]. cbn [negb] in h.
    destruct (run body (set_class i c s)) as [[[]|e] s2]; [|discriminate]. inversion h; subst. unfold class_of at 1, set_class. cbn. rewrite dget_dset_same. split; [reflexivity|]. split; [exact m|].
    exists s2. split; [reflexivity|]. intros j n. unfold class_of. cbn. rewrite dget_dset_other by congruence. reflexivity.
  Qed.
  (** Inside the block the instance has the class asked for; a class that is not a parent is refused. *)
  Theorem cast_inside : forall i c body s, (In c (mro (class_of s i)) -> exists s1, class_of s1 i = c /\ (forall j, j <> i -> class_of s1 j = class_of s j) /\ fst (run (WithCast i c body) s) = fst (run body s1)) /\
    (~ In c (mro (class_of s i)) -> run (WithCast i c body) s = (Err AttributeError, s)).
  Proof.
    intros i c body s. cbn [With_Model.run]. split; intros h.
    - apply (mem_In EqDec_nat) in h. rewrite h. cbn [negb]. exists (set_class i c s). split; [unfold class_of, set_class; cbn; rewrite dget_dset_same; reflexivity|].
      split; [intros j n; unfold class_of, set_class; cbn; rewrite dget_dset_other by congruence; reflexivity|]. destruct (run body (set_class i c s)) as [[[]|e] s2]; reflexivity.
    - apply (mem_not_In EqDec_nat) in h. rewrite h. reflexivity.
  Qed.
  (** But when the block raises, the instance keeps the class it was cast to (however deep the exception comes from) *)
  Theorem cast_exception_refuted : forall i c body s e s', In c (mro (class_of s i)) -> run body (set_class i c s) = (Err e, s') -> run (WithCast i c body) s = (Err e, s').
  Proof. intros i c body s e s' h r. cbn [With_Model.run]. apply (mem_In EqDec_nat) in h. rewrite h. cbn [negb]. rewrite r. reflexivity. Qed.
End Run.
Print Assumptions directory_restored.
Print Assumptions directory_missing.
Print Assumptions directory_nesting.
Print Assumptions cast_restored.
Print Assumptions cast_inside.
Print Assumptions cast_exception_refuted.

(** class 2 derives from 1 which derives from 0 *)
Definition mro53 (c : nat) : list nat := match c with 2 => [2; 1; 0] | 1 => [1; 0] | _ => [0] end.
Definition w0 : wst := {| cwd := 0; present := [0; 1; 2]; w_cls := [(7, 2)] |}.
Example nesting_case : run mro53 (WithDir 1 (Then (WithDir 2 (Raise ValueError)) Skip)) w0 = (Err ValueError, w0).
Proof. reflexivity. Qed.
Example cast_case : snd (run mro53 (WithCast 7 1 (WithCast 7 0 Skip)) w0) = w0.
Proof. reflexivity. Qed.
Example cast_lost_case : class_of (snd (run mro53 (TryExcept (WithCast 7 1 (Raise KeyError)) Skip) w0)) 7 = 1 /\ class_of w0 7 = 2.
Proof. split; reflexivity. Qed.
