(** C72. Information on files. *)
From Verif Require Import Base Fi_Model Fi_Spec.
From Coq Require Import NArith DecimalString.
Local Open Scope list_scope.

Lemma tenths_nearest num den : (0 < den)%N -> Nearest num den (tenths num den).
Proof.
  intros hd. unfold Nearest, tenths. pose proof (N.div_mod (10 * num) den) as e. pose proof (N.mod_lt (10 * num) den) as l.
  assert (hz : den <> 0%N) by lia. specialize (e hz). specialize (l hz).
  set (q := (10 * num / den)%N) in *. set (r := (10 * num mod den)%N) in *.
  assert (p1 : (2 * q * den = 2 * (den * q))%N) by ring. assert (p2 : (2 * (q + 1) * den = 2 * (den * q) + 2 * den)%N) by ring.
  clearbody q r. generalize dependent (den * q)%N. intros z e p1 p2.
  destruct (2 * r ?= den)%N eqn:c.
  - apply N.compare_eq in c. destruct (N.even q); rewrite ?p1, ?p2; lia.
  - rewrite N.compare_lt_iff in c. rewrite p1. lia.
  - rewrite N.compare_gt_iff in c. rewrite p2. lia.
Qed.
Lemma show_text t : Text t (show_tenths t).
Proof.
  unfold show_tenths, decimalN. apply (text_of t (t / 10) (t mod 10)).
  - apply N.div_mod. discriminate.
  - apply N.mod_lt. discriminate.
  - apply NilEmpty.usu.
Qed.
(** A size below 1024 TB is shown in its unit, to the nearest tenth. *)
Theorem human_nearest : forall size, (size < 1024 ^ 5)%N -> exists u unit t text,
  human size = inl (text ++ " " ++ u)%string /\ UnitOf size u unit /\ Nearest size unit t /\ Text t text.
Proof.
  intros size h. unfold human, units. cbn [human_from].
  change (1 * 1024)%N with 1024%N. change (1024 * 1)%N with 1024%N. change (1024 * 1024 * 1024 * 1024)%N with (1024 ^ 4)%N. change (1024 * 1024 * 1024)%N with (1024 ^ 3)%N.
  change (1024 * 1024)%N with (1024 ^ 2)%N. change (1024 * 1024 ^ 2)%N with (1024 ^ 3)%N. change (1024 * 1024 ^ 3)%N with (1024 ^ 4)%N. change (1024 * 1024 ^ 4)%N with (1024 ^ 5)%N.
  destruct (size <? 1024)%N eqn:c1; [apply N.ltb_lt in c1|apply N.ltb_ge in c1];
    [exists "bytes"%string, 1%N; do 2 eexists; split; [reflexivity|]; split; [constructor; exact c1|]; split; [apply tenths_nearest; reflexivity|apply show_text]|].
  destruct (size <? 1024 ^ 2)%N eqn:c2; [apply N.ltb_lt in c2|apply N.ltb_ge in c2];
    [exists "KB"%string, 1024%N; do 2 eexists; split; [reflexivity|]; split; [constructor; split; assumption|]; split; [apply tenths_nearest; reflexivity|apply show_text]|].
  destruct (size <? 1024 ^ 3)%N eqn:c3; [apply N.ltb_lt in c3|apply N.ltb_ge in c3];
    [exists "MB"%string, (1024 ^ 2)%N; do 2 eexists; split; [reflexivity|]; split; [constructor; split; assumption|]; split; [apply tenths_nearest; reflexivity|apply show_text]|].
  destruct (size <? 1024 ^ 4)%N eqn:c4; [apply N.ltb_lt in c4|apply N.ltb_ge in c4];
    [exists "GB"%string, (1024 ^ 3)%N; do 2 eexists; split; [reflexivity|]; split; [constructor; split; assumption|]; split; [apply tenths_nearest; reflexivity|apply show_text]|].
  rewrite (proj2 (N.ltb_lt _ _) h).
  exists "TB"%string, (1024 ^ 4)%N; do 2 eexists; split; [reflexivity|]; split; [constructor; split; assumption|]; split; [apply tenths_nearest; reflexivity|apply show_text].
Qed.
Print Assumptions human_nearest.
(** A larger one is given as a number, without a unit. *)
Theorem human_large_refuted : forall size, (1024 ^ 5 <= size)%N -> human size = inr (size, (1024 ^ 5)%N).
Proof.
  intros size h. unfold human, units. cbn [human_from].
  repeat match goal with |- context [(size <? ?x)%N] => replace (size <? x)%N with false by (symmetry; apply N.ltb_ge; etransitivity; [|exact h]; vm_compute; discriminate) end.
  reflexivity.
Qed.
Print Assumptions human_large_refuted.
(** In the unit of bytes nothing is lost. *)
Theorem human_bytes : forall size, (size < 1024)%N -> human size = inl (NilEmpty.string_of_uint (N.to_uint size) ++ ".0 bytes")%string.
Proof.
  intros size h. unfold human, units. cbn [human_from]. change (1024 * 1)%N with 1024%N. rewrite (proj2 (N.ltb_lt _ _) h). f_equal.
  unfold tenths. rewrite N.div_1_r, N.mod_1_r. change (2 * 0 ?= 1)%N with Lt. cbn iota. unfold show_tenths, decimalN.
  replace (10 * size / 10)%N with size by (rewrite N.mul_comm, N.div_mul; [reflexivity|discriminate]).
  replace ((10 * size) mod 10)%N with 0%N by (rewrite N.mul_comm, N.mod_mul; [reflexivity|discriminate]).
  generalize (NilEmpty.string_of_uint (N.to_uint size)). intros s. clear h. induction s as [|c s IH]; [reflexivity|]. cbn. f_equal. exact IH.
Qed.
Print Assumptions human_bytes.
(** The larger of two sizes shown in the same unit is not shown smaller. *)
Lemma tenths_monotone n m den : (0 < den)%N -> (n <= m)%N -> (tenths n den <= tenths m den)%N.
Proof.
  intros hd h. unfold tenths. pose proof (N.div_mod (10 * n) den) as e1. pose proof (N.mod_lt (10 * n) den) as l1.
  pose proof (N.div_mod (10 * m) den) as e2. pose proof (N.mod_lt (10 * m) den) as l2.
  assert (hz : den <> 0%N) by lia. specialize (e1 hz). specialize (l1 hz). specialize (e2 hz). specialize (l2 hz).
  assert (hq : (10 * n / den <= 10 * m / den)%N) by (apply N.div_le_mono; lia).
  set (q1 := (10 * n / den)%N) in *. set (r1 := (10 * n mod den)%N) in *. set (q2 := (10 * m / den)%N) in *. set (r2 := (10 * m mod den)%N) in *.
  destruct (N.eq_dec q1 q2) as [eq|ne].
  - rewrite <- eq in *. assert (hr : (r1 <= r2)%N) by lia.
    destruct (2 * r1 ?= den)%N eqn:c1, (2 * r2 ?= den)%N eqn:c2; try (apply N.compare_eq in c1); try (rewrite N.compare_lt_iff in c1); try (rewrite N.compare_gt_iff in c1);
      try (apply N.compare_eq in c2); try (rewrite N.compare_lt_iff in c2); try (rewrite N.compare_gt_iff in c2); destruct (N.even q1); lia.
  - assert (H : (q1 + 1 <= q2)%N) by lia. transitivity (q1 + 1)%N; [|transitivity q2; [exact H|]];
      [destruct (2 * r1 ?= den)%N; try destruct (N.even q1); lia|destruct (2 * r2 ?= den)%N; try destruct (N.even q2); lia].
Qed.
Theorem human_monotone : forall n m u unit, (n <= m)%N -> UnitOf n u unit -> UnitOf m u unit -> exists t1 t2 x1 x2, (t1 <= t2)%N /\ Text t1 x1 /\ Text t2 x2 /\
  human n = inl (x1 ++ " " ++ u)%string /\ human m = inl (x2 ++ " " ++ u)%string.
Proof.
  assert (G : forall n u unit, UnitOf n u unit -> human n = inl (show_tenths (tenths n unit) ++ " " ++ u)%string /\ (0 < unit)%N).
  { intros n u unit h. unfold human, units. cbn [human_from].
    inversion h; subst; (split; [|reflexivity]);
      repeat match goal with |- context [(n <? ?x)%N] =>
        first [replace (n <? x)%N with false by (symmetry; apply N.ltb_ge; lia) | replace (n <? x)%N with true by (symmetry; apply N.ltb_lt; lia)] end; reflexivity. }
  intros n m u unit h hn hm. destruct (G n u unit hn) as [e1 p]. destruct (G m u unit hm) as [e2 _].
  exists (tenths n unit), (tenths m unit). do 2 eexists. split; [apply tenths_monotone; assumption|].
  split; [apply show_text|]. split; [apply show_text|]. split; [exact e1|exact e2].
Qed.
Print Assumptions human_monotone.
(** Just below the next unit 1024.0 is shown, which is one of that unit. *)
Theorem human_rounds_up_refuted : human 1048525 = inl "1024.0 KB"%string /\ UnitOf 1048525 "KB" 1024 /\ human 1048576 = inl "1.0 MB"%string.
Proof. split; [vm_compute; reflexivity|]. split; [constructor; split; vm_compute; [discriminate|reflexivity]|vm_compute; reflexivity]. Qed.
Print Assumptions human_rounds_up_refuted.

(** * the digest *)
Section Sha.
  Variables state byte digest : Type.
  Variable init : state.
  Variable update : state -> list byte -> state.
  Variable hexdigest : state -> digest.
  (** what the hash library says of updates: several are as one *)
  Hypothesis update_app : forall s a b, update (update s a) b = update s (a ++ b).
  Hypothesis update_nil : forall s, update s [] = s.
  Lemma loop_digest : forall fuel n sizes st data, 0 < n -> length data < fuel ->
    sha_loop update hexdigest fuel n sizes st data = Ok (hexdigest (update st data)).
  Proof.
    induction fuel as [|fuel IH]; intros n sizes st data hn hl; [lia|]. cbn [sha_loop]. unfold read.
    set (k := match hd_error sizes with None => n | Some m => Nat.min n (S m) end).
    assert (hk : 0 < k) by (unfold k; destruct (hd_error sizes); lia).
    destruct data as [|x data].
    - rewrite firstn_nil. rewrite update_nil. reflexivity.
    - pose proof (firstn_skipn k (x :: data)) as sp. destruct k as [|k]; [lia|]. cbn [firstn skipn] in *. rewrite IH; [|exact hn|].
      + rewrite update_app. cbn [app]. rewrite firstn_skipn. reflexivity.
      + rewrite skipn_length. cbn [length] in hl. lia.
  Qed.
  (** The digest is that of the whole content, whatever the size of the blocks and however they arrive. *)
  Theorem sha1_whole : forall n sizes data, 0 < n -> exists fuel, forall more, fuel <= more ->
    sha1 init update hexdigest more n (Some (sizes, data)) = Ok (hexdigest (update init data)).
  Proof. intros n sizes data hn. exists (S (length data)). intros more h. apply loop_digest; [exact hn|lia]. Qed.
  (** So two sources with the same content have the same digest. *)
  Theorem sha1_content : forall n n' sizes sizes' data fuel fuel', 0 < n -> 0 < n' -> length data < fuel -> length data < fuel' ->
    sha1 init update hexdigest fuel n (Some (sizes, data)) = sha1 init update hexdigest fuel' n' (Some (sizes', data)).
  Proof. intros. cbn [sha1]. rewrite !loop_digest by assumption. reflexivity. Qed.
  (** Without a file the digest is that of nothing. *)
  Theorem sha1_no_file_refuted : forall n fuel, 0 < n -> 0 < fuel -> sha1 init update hexdigest fuel n None = sha1 init update hexdigest fuel n (Some ([], [])).
  Proof. intros n fuel hn hf. cbn [sha1]. rewrite loop_digest by (cbn; assumption). rewrite update_nil. reflexivity. Qed.
End Sha.
Print Assumptions sha1_whole.
Print Assumptions sha1_content.
Print Assumptions sha1_no_file_refuted.

(** a hash object that keeps what it was given *)
Example sha1_case : sha1 [] (fun s b => s ++ b) (fun s => length s :: s) 9 3 (Some ([0; 5; 1], [7; 8; 9; 7; 8; 9; 1])) = Ok [7; 7; 8; 9; 7; 8; 9; 1] /\
  (forall s a b : list nat, (s ++ a) ++ b = s ++ (a ++ b)) /\ (forall s : list nat, s ++ [] = s).
Proof. split; [reflexivity|]. split; [intros; symmetry; apply app_assoc|intros; apply app_nil_r]. Qed.
Example human_cases : human 0 = inl "0.0 bytes"%string /\ human 1536 = inl "1.5 KB"%string /\ human 123456789 = inl "117.7 MB"%string /\
  human (3 * 1024 ^ 4) = inl "3.0 TB"%string.
Proof. repeat split; vm_compute; reflexivity. Qed.
