(** C102: committing to a repository of files always fails, after having done its work. *)
From Verif Require Import Fr_Model.
Local Open Scope string_scope. Local Open Scope list_scope.

Section Theorems.
  Variable A : Type.
  Variable saver : A -> files -> res A * files.
  Variable items : A -> res (list A).
  Variable encode : list A -> files -> res (list ascii).
  Variable many : bool.
  Notation commit := (commit A saver items encode many).
  Notation commits := (commits A saver items encode many).
  Notation repo := (repo A).

  (** No commit returns, whatever the files, the path and the value. *)
  Theorem file_commit_refuted p save v (s : repo) : exists e, fst (commit p save v s) = Err e.
  Proof.
    unfold Fr_Model.commit. destruct (fst (base_commit A saver items many save v s)) as [[]|e]; [|exists e; reflexivity].
    destruct (encode _ _); [|eexists; reflexivity]. destruct p as [p|]; [|eexists; reflexivity].
    destruct (if path_exists (removelast p) _ then _ else _) as [fs|]; [|eexists; reflexivity]. destruct (path_exists p fs); eexists; reflexivity.
  Qed.

  (** When saving, encoding and making directories succeed, the error is NameError. *)
  Theorem file_commit_name_error p v w stream (s : repo) fs : saver v (r_fs A s) = (Ok w, fs) -> many = false -> encode [w] fs = Ok stream ->
    (In (removelast p) (f_dirs fs) \/ exists x, dget (removelast p) (f_files fs) = Some x) ->
    commit (Some p) true v s = (Err NameError, {| r_content := [w]; r_fs := fs |}).
  Proof.
    intros e hm he hp. assert (path_exists (removelast p) fs = true) as hp'.
    { unfold path_exists. apply orb_true_iff. destruct hp as [i|[x h]]; [left; exact (proj2 (mem_In _ _ _) i)|right; unfold dmem; rewrite h; reflexivity]. }
    clear hp. rename hp' into hp. unfold Fr_Model.commit, base_commit. rewrite e, hm. cbn [fst snd r_fs r_content]. rewrite he, hp.
    destruct (path_exists p fs); reflexivity.
  Qed.

  Lemma commit_content p save v (s : repo) : r_content A (snd (commit p save v s)) = r_content A (snd (base_commit A saver items many save v s)) /\
    f_files (r_fs A (snd (commit p save v s))) = f_files (r_fs A (snd (base_commit A saver items many save v s))) /\
    incl (f_dirs (r_fs A (snd (base_commit A saver items many save v s)))) (f_dirs (r_fs A (snd (commit p save v s)))).
  Proof.
    unfold Fr_Model.commit. set (s1 := snd (base_commit A saver items many save v s)). destruct (fst (base_commit A saver items many save v s)) as [[]|e]; [|repeat split; apply incl_refl].
    destruct (encode _ _); [|repeat split; apply incl_refl]. destruct p as [p|]; [|repeat split; apply incl_refl].
    destruct (path_exists (removelast p) (r_fs A s1)).
    - destruct (path_exists p (r_fs A s1)); repeat split; apply incl_refl.
    - unfold makedirs. destruct (existsb _ _); [repeat split; apply incl_refl|]. destruct (path_exists p _); repeat split; cbn; apply incl_appl, incl_refl.
  Qed.

  (** Committing writes nothing itself: over any history of commits without saving, the files are the same, and directories only come. *)
  Theorem file_commit_writes_nothing l : forall s : repo, (forall p save v, In (p, save, v) l -> save = false) ->
    f_files (r_fs A (commits l s)) = f_files (r_fs A s) /\ incl (f_dirs (r_fs A s)) (f_dirs (r_fs A (commits l s))).
  Proof.
    induction l as [|[[p save] v] l IH]; intros s h; [split; [reflexivity|apply incl_refl]|]. cbn [Fr_Model.commits].
    assert (save = false) as -> by exact (h p save v (or_introl eq_refl)). destruct (IH (snd (commit p false v s)) (fun p' s' v' i => h p' s' v' (or_intror i))) as [e1 e2].
    destruct (commit_content p false v s) as (_ & f1 & f2).
    assert (r_fs A (snd (base_commit A saver items many false v s)) = r_fs A s) as eb. { unfold base_commit. cbn. destruct many; [destruct (items v)|]; reflexivity. }
    rewrite eb in f1, f2. split; [congruence|]. exact (incl_tran f2 e2).
  Qed.

  (** The contents are changed although the commit failed: in a repository of many values each new try adds the items again. *)
  Theorem file_commit_retried_refuted p v l n : many = true -> items v = Ok l -> forall s : repo,
    r_content A (commits (repeat (p, false, v) n) s) = r_content A s ++ concat (repeat l n).
  Proof.
    intros hm hi. induction n as [|n IH]; intros s; [cbn; symmetry; apply app_nil_r|]. cbn [repeat Fr_Model.commits concat]. rewrite IH.
    destruct (commit_content p false v s) as (e & _). rewrite e. unfold base_commit. cbn [fst snd]. rewrite hm, hi. cbn. rewrite <- app_assoc. reflexivity.
  Qed.
  (** and in a repository of one value it is the one committed, whether the save wrote it or not. *)
  Theorem file_commit_replaces_refuted p (save : bool) v w (s : repo) : many = false ->
    fst (if save then saver v (r_fs A s) else (Ok v, r_fs A s)) = Ok w ->
    r_content A (snd (commit p save v s)) = [w].
  Proof.
    intros hm h. destruct (commit_content p save v s) as (e & _). rewrite e. unfold base_commit. rewrite h, hm. reflexivity.
  Qed.
  (** Only a save or an iteration that fails leaves the contents as they were. *)
  Theorem file_commit_failed_save p v e fs (s : repo) : saver v (r_fs A s) = (Err e, fs) ->
    commit p true v s = (Err e, {| r_content := r_content A s; r_fs := fs |}).
  Proof. intros h. unfold Fr_Model.commit, base_commit. rewrite h. reflexivity. Qed.

  (** Without a path it is an AttributeError, after the value has become the contents. *)
  Theorem file_commit_no_path v w stream (s : repo) fs : saver v (r_fs A s) = (Ok w, fs) -> many = false -> encode [w] fs = Ok stream ->
    commit None true v s = (Err AttributeError, {| r_content := [w]; r_fs := fs |}).
  Proof. intros e hm he. unfold Fr_Model.commit, base_commit. rewrite e, hm. cbn [fst snd r_fs r_content]. rewrite he. reflexivity. Qed.

  (** Directories are made for a commit that fails: all those on the way to the file. *)
  Theorem file_commit_directories p v l stream (s : repo) : many = true -> items v = Ok l -> encode (r_content A s ++ l) (r_fs A s) = Ok stream ->
    ~ In (removelast p) (f_dirs (r_fs A s)) -> (forall q, In q (prefixes (removelast p)) -> dget q (f_files (r_fs A s)) = None) ->
    fst (commit (Some p) false v s) = Err NameError /\
    forall q, In q (prefixes (removelast p)) -> In q (f_dirs (r_fs A (snd (commit (Some p) false v s)))).
  Proof.
    intros hm hi he hn hf. assert (path_exists (removelast p) (r_fs A s) = false) as hp.
    { unfold path_exists, dmem. rewrite (hf (removelast p)) by (generalize (removelast p); clear; intros l; induction l as [|x l IH]; [left; reflexivity|right; apply in_map; exact IH]).
      apply orb_false_iff. split; [exact (proj2 (mem_not_In _ _ _) hn)|reflexivity]. }
    unfold Fr_Model.commit, base_commit. cbn [fst snd]. rewrite hm, hi. cbn [fst snd r_content r_fs]. rewrite he, hp. unfold makedirs.
    assert (existsb (fun q => dmem q (f_files (r_fs A s))) (prefixes (removelast p)) = false) as ->.
    { apply not_true_is_false. intros h. apply existsb_exists in h. destruct h as (q & i & h). unfold dmem in h. rewrite (hf q i) in h. discriminate. }
    destruct (path_exists p _); cbn [fst snd r_fs f_dirs]; (split; [reflexivity|]); intros q i; apply in_or_app;
      (destruct (mem q (f_dirs (r_fs A s))) eqn:m; [left; exact (proj1 (mem_In _ _ _) m)|right; apply filter_In; split; [exact i|rewrite m; reflexivity]]).
  Qed.
End Theorems.

(** the directories on the way are the beginnings of the path *)
Theorem prefixes_are_beginnings p q : In q (prefixes p) <-> exists r, p = q ++ r.
Proof.
  revert q. induction p as [|x p IH]; intros q; cbn [prefixes In].
  - split; [intros [<-|[]]; exists []; reflexivity|]. intros [r h]. symmetry in h. apply app_eq_nil in h. left. symmetry. apply h.
  - split.
    + intros [<-|i]; [exists (x :: p); reflexivity|]. apply in_map_iff in i. destruct i as (q' & <- & i). apply IH in i. destruct i as [r ->]. exists r. reflexivity.
    + intros [r h]. destruct q as [|y q]; [left; reflexivity|]. injection h as <- h. right. apply in_map. apply IH. exists r. exact h.
Qed.

(** ** a repository of numbers *)
Definition ex_fs : files := {| f_dirs := [[]; ["home"]]; f_files := [(["home"; "a.json"], [])] |}.
Definition ex_saver (v : nat) (fs : files) : res nat * files := (Ok v, {| f_dirs := f_dirs fs; f_files := dset ["home"; "a.json"] ["1"%char] (f_files fs) |}).
Definition ex_items (v : nat) : res (list nat) := Ok [v; S v].
Definition ex_encode (l : list nat) (fs : files) : res (list ascii) := Ok [].
Example ex_one : commit nat ex_saver ex_items ex_encode false (Some ["home"; "a.json"]) true 3 {| r_content := []; r_fs := ex_fs |}
  = (Err NameError, {| r_content := [3]; r_fs := {| f_dirs := [[]; ["home"]]; f_files := [(["home"; "a.json"], ["1"%char])] |} |}).
Proof. reflexivity. Qed.
Example ex_tries : r_content nat (commits nat ex_saver ex_items ex_encode true (repeat (Some ["home"; "a.json"], false, 3) 2) {| r_content := [9]; r_fs := ex_fs |}) = [9; 3; 4; 3; 4].
Proof. reflexivity. Qed.
Example ex_dirs : let c := commit nat ex_saver ex_items ex_encode true (Some ["home"; "x"; "y"; "b.json"]) false 3 {| r_content := []; r_fs := ex_fs |} in
  fst c = Err NameError /\ f_dirs (r_fs nat (snd c)) = [[]; ["home"]; ["home"; "x"]; ["home"; "x"; "y"]].
Proof. split; reflexivity. Qed.
Print Assumptions file_commit_refuted.
Print Assumptions file_commit_name_error.
Print Assumptions file_commit_writes_nothing.
Print Assumptions file_commit_retried_refuted.
Print Assumptions file_commit_replaces_refuted.
Print Assumptions file_commit_failed_save.
Print Assumptions file_commit_no_path.
Print Assumptions file_commit_directories.
Print Assumptions prefixes_are_beginnings.
