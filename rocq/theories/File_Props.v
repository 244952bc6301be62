(** C49: writing files. *)
From Verif Require Import Base File_Model.
Local Open Scope list_scope.

Section Files.
  Context {text charset : Type} {ET : EqDec text} (enc : charset -> text -> option bytes) (dec : charset -> bytes -> option text) (locale : charset).
  Notation saver := (saver charset). Notation fopts := (fopts charset). Notation content := (content text).
  Notation write_file := (write_file text charset enc dec locale).
  Notation append_file := (append_file text charset enc locale).
  Notation save_file := (save_file text charset enc dec locale).
  Notation read_file := (read_file text charset dec).
  Notation encode := (encode text charset enc locale).

  (** the codec law: what was encoded decodes to itself *)
  Definition Codec : Prop := forall c t b, enc c t = Some b -> dec c b = Some t.
  (** the call does not override the settings of the saver *)
  Definition Plain (sv : saver) (o : fopts) : Prop := (f_binary o = None \/ f_binary o = Some (s_binary sv)) /\ (f_charset o = None \/ f_charset o = Some (s_charset sv)).

  Lemma prefixes_last b s p d : last (map (set_file s p) (prefixes b)) d = set_file s p b.
  Proof.
    unfold prefixes. rewrite seq_S, !map_app. cbn. rewrite last_last, firstn_all. reflexivity.
  Qed.
  Lemma last_app_ne {A} (a b : list A) d : b <> [] -> last (a ++ b) d = last b d.
  Proof. intros nb. induction a as [|x a IH]; [reflexivity|]. cbn. rewrite IH. destruct (a ++ b) eqn:e; [apply app_eq_nil in e; destruct e; contradiction|reflexivity]. Qed.
  Lemma prefixes_ne b : prefixes b <> [].
  Proof. discriminate. Qed.
  Lemma content_eqb_spec (a b : content) : content_eqb text a b = true <-> a = b.
  Proof.
    destruct a as [t|x], b as [u|y]; cbn; split; try discriminate.
    - intros h. apply beq_true in h. congruence.
    - intros h. inversion h. apply beq_refl.
    - intros h. apply beq_true in h. congruence.
    - intros h. inversion h. apply beq_refl.
  Qed.
  Lemma made_files s p s1 : makedirs s p = Ok s1 -> files s1 = files s.
  Proof. unfold makedirs. destruct (existsb (is_file s) (ancestors p)); [discriminate|]. intros h. inversion h. reflexivity. Qed.
  Lemma encode_read sv o v b s p : Codec -> Plain sv o -> encode sv o v = Ok b -> read_file sv (set_file s p b) p = Ok v.
  Proof.
    intros cd [pb pc] h. unfold File_Model.encode in h. unfold File_Model.read_file, set_file. cbn [files]. rewrite dget_dset_same. destruct (s_binary sv).
    - destruct pb as [pb|pb]; rewrite pb in h; (destruct v; [discriminate|congruence]).
    - destruct v as [t|]; [|discriminate]. assert (e : (match f_charset o with Some c => c | None => s_charset sv end) = s_charset sv) by (destruct pc as [q|q]; rewrite q; reflexivity).
      rewrite e in h. destruct (enc (s_charset sv) t) as [b'|] eqn:en; [|discriminate]. inversion h; subst. rewrite (cd _ _ _ en). reflexivity.
  Qed.
  Lemma makedirs_dirs s p s1 : makedirs s p = Ok s1 -> forall d, In d (dirs s1) <-> In d (dirs s) \/ In d (ancestors p).
  Proof.
    unfold makedirs. destruct (existsb (is_file s) (ancestors p)); [discriminate|]. intros h. inversion h; subst; cbn. intros d. rewrite in_app_iff, filter_In.
    unfold is_dir. destruct (mem_spec _ d (dirs s)); cbn; intuition congruence.
  Qed.
  (** what [write_file] does, by cases *)
  Lemma write_cases sv o v p s r tr : write_file sv o v p s = (r, tr) ->
    (exists e, r = Err e /\ tr = []) \/
    exists s1 made, makedirs s p = Ok s1 /\ made = (if forallb (is_dir s) (ancestors p) then [] else [s1]) /\
      ((exists e, r = Err e /\ tr = made) \/
       (r = Ok false /\ tr = made /\ read_file sv s1 p = Ok v) \/
       (exists e, r = Err e /\ encode sv o v = Err e /\ tr = made ++ [set_file s1 p []]) \/
       (exists b, r = Ok true /\ encode sv o v = Ok b /\ tr = made ++ map (set_file s1 p) (prefixes b))).
  Proof.
    unfold File_Model.write_file. destruct (makedirs s p) as [s1|e] eqn:em; [|intros h; inversion h; left; eauto].
    intros h. right. exists s1, (if forallb (is_dir s) (ancestors p) then [] else [s1]). split; [reflexivity|]. split; [reflexivity|].
    destruct (is_dir s1 p); [inversion h; subst; left; eauto|].
    destruct (is_file s1 p).
    - destruct (File_Model.read_file text charset dec sv s1 p) as [c|e] eqn:er; [|inversion h; subst; left; eauto].
      destruct (content_eqb text v c) eqn:ec.
      + apply content_eqb_spec in ec. subst. inversion h; subst. right. left. auto.
      + destruct (File_Model.encode text charset enc locale sv o v) as [b|e]; inversion h; subst; right; right; [right|left]; eauto.
    - destruct (File_Model.encode text charset enc locale sv o v) as [b|e]; inversion h; subst; right; right; [right|left]; eauto.
  Qed.

  (** After a save that raises nothing the file contains the value. *)
  Theorem save_stores : Codec -> forall sv o v p s w tr, Plain sv o ->
    write_file sv o v p s = (Ok w, tr) -> read_file sv (last_state s tr) p = Ok v.
  Proof.
    intros cd sv o v p s w tr pl h. apply write_cases in h. destruct h as [(e & q & _)|(s1 & made & em & hm & [(e & q & _)|[(q & ht & hr)|[(e & q & _)|(b & q & he & ht)]]])]; try discriminate.
    - subst tr. unfold last_state. assert (f : files (last made s) = files s1).
      { rewrite hm. destruct (forallb (is_dir s) (ancestors p)); cbn; [symmetry; eapply made_files; exact em|reflexivity]. }
      unfold File_Model.read_file in *. rewrite f. exact hr.
    - subst tr. unfold last_state. rewrite last_app_ne by (unfold prefixes; discriminate). rewrite prefixes_last. eapply encode_read; eassumption.
  Qed.
  (** Saving what the file contains already writes nothing. *)
  Theorem save_same_untouched : forall sv o v p s, read_file sv s p = Ok v -> forallb (is_dir s) (ancestors p) = true -> is_dir s p = false ->
    existsb (is_file s) (ancestors p) = false -> write_file sv o v p s = (Ok false, []).
  Proof.
    intros sv o v p s hr hd np nf. unfold File_Model.write_file, makedirs. rewrite nf.
    assert (d : filter (fun d => negb (is_dir s d)) (ancestors p) = []).
    { rewrite forallb_forall in hd. revert hd. generalize (ancestors p). induction l as [|x l IH]; [reflexivity|]. intros hd. cbn. rewrite (hd x (or_introl eq_refl)). cbn. apply IH. intros y i. apply hd. right. exact i. }
    rewrite d, app_nil_r. rewrite hd. unfold is_dir in *. cbn [dirs]. rewrite np.
    unfold is_file. cbn [files]. unfold File_Model.read_file in *. cbn [files] in *. unfold dmem. destruct (dget p (files s)) as [b|]; [|discriminate]. rewrite hr.
    assert (e : content_eqb text v v = true) by (apply content_eqb_spec; reflexivity). rewrite e. reflexivity.
  Qed.
  (** So a second identical save does nothing. *)
  Theorem save_idempotent : Codec -> forall sv o v p s w tr, Plain sv o ->
    (forall q, In q (dirs s) -> is_file s q = false) -> write_file sv o v p s = (Ok w, tr) ->
    write_file sv o v p (last_state s tr) = (Ok false, []).
  Proof.
    intros cd sv o v p s w tr pl wf h. pose proof (save_stores cd sv o v p s w tr pl h) as st.
    assert (np : is_dir s p = false /\ ~ In p (ancestors p)).
    { assert (na : ~ In p (ancestors p)). { clear. induction p as [|x p IH]; [intros []|]. cbn. intros [e|i]; [discriminate|]. apply in_map_iff in i. destruct i as (y & e & i). inversion e; subst. contradiction. }
      split; [|exact na]. unfold is_dir. destruct (mem_spec _ p (dirs s)) as [i|n]; [|reflexivity]. exfalso.
      unfold File_Model.write_file in h. destruct (makedirs s p) as [s1|] eqn:em; [|discriminate]. assert (d : is_dir s1 p = true). { unfold is_dir. apply mem_In. apply (makedirs_dirs s p s1 em). left. exact i. }
      rewrite d in h. discriminate. }
    apply write_cases in h. destruct h as [(e & q & _)|(s1 & made & em & hm & hc)]; [discriminate|].
    assert (fin : dirs (last_state s tr) = dirs s1 /\ forall q, is_file (last_state s tr) q = true -> q = p \/ is_file s q = true).
    { unfold last_state. destruct hc as [(e & q & _)|[(q & ht & hr)|[(e & q & _)|(b & q & he & ht)]]]; try discriminate.
      - subst tr. rewrite hm. destruct (forallb (is_dir s) (ancestors p)) eqn:fd; cbn.
        + split; [|auto]. unfold makedirs in em. destruct (existsb (is_file s) (ancestors p)); [discriminate|]. inversion em; subst. cbn.
          rewrite forallb_forall in fd. assert (d : filter (fun d => negb (is_dir s d)) (ancestors p) = []).
          { revert fd. generalize (ancestors p). induction l as [|x l IH]; [reflexivity|]. intros fd. cbn. rewrite (fd x (or_introl eq_refl)). apply IH. intros y i. apply fd. right. exact i. }
          rewrite d, app_nil_r. reflexivity.
        + split; [reflexivity|]. unfold is_file. rewrite (made_files s p s1 em). auto.
      - subst tr. rewrite last_app_ne by (unfold prefixes; discriminate). rewrite prefixes_last. split; [reflexivity|]. unfold is_file, set_file, dmem. cbn. intros q0. rewrite dget_dset.
        destruct (eq_dec q0 p); [auto|]. rewrite (made_files s p s1 em). auto. }
    destruct fin as [fd ff]. apply save_same_untouched.
    - exact st.
    - apply forallb_forall. intros d i. unfold is_dir. apply mem_In. rewrite fd. apply (makedirs_dirs s p s1 em). right. exact i.
    - unfold is_dir. rewrite fd. destruct (mem_spec _ p (dirs s1)) as [i|n]; [|reflexivity]. exfalso. apply (makedirs_dirs s p s1 em) in i. destruct np as [n1 n2].
      destruct i as [i|i]; [|contradiction]. unfold is_dir in n1. apply mem_not_In in n1. contradiction.
    - apply Bool.not_true_is_false. intros q. apply existsb_exists in q. destruct q as (d & i & f). destruct (ff d f) as [->|f2]; [destruct np; contradiction|].
      unfold makedirs in em. destruct (existsb (is_file s) (ancestors p)) eqn:ex; [discriminate|]. assert (existsb (is_file s) (ancestors p) = true); [|congruence]. apply existsb_exists. eauto.
  Qed.
  (** In every state the save goes through, also when it is interrupted or raises: the other files are as they were, no directory
      disappears, and the file itself has its old content or the beginning of the new one. *)
  Theorem save_every_point : forall ap sv o v p s r tr s', save_file ap sv o v p s = (r, tr) -> In s' tr ->
    (forall q, q <> p -> dget q (files s') = dget q (files s)) /\
    (forall d, In d (dirs s) -> In d (dirs s')) /\
    (forall d, In d (dirs s') -> In d (dirs s) \/ In d (ancestors p)) /\
    (dget p (files s') = dget p (files s) \/
     exists b, dget p (files s') = Some b /\
       if ap then exists old b1 b2, dget p (files s) = Some old /\ encode sv o v = Ok (b1 ++ b2) /\ b = old ++ b1
       else b = [] \/ exists b2, encode sv o v = Ok (b ++ b2)).
  Proof.
    intros ap sv o v p s r tr s' h i. destruct ap; cbn [File_Model.save_file] in h.
    - unfold File_Model.append_file in h. destruct (dget p (files s)) as [old|] eqn:eo; [|inversion h; subst; destruct i].
      destruct (File_Model.encode text charset enc locale sv o v) as [b|e] eqn:ee; [|inversion h; subst; destruct i].
      assert (ht : tr = map (fun x => set_file s p (old ++ x)) (prefixes b)) by congruence. rewrite ht in i. clear h ht.
      apply in_map_iff in i. destruct i as (x & <- & ix). unfold set_file; cbn [files dirs].
      split; [intros q n; apply dget_dset_other; congruence|]. split; [auto|]. split; [auto|]. right. exists (old ++ x). rewrite dget_dset_same. split; [reflexivity|].
      unfold prefixes in ix. apply in_map_iff in ix. destruct ix as (n & <- & _). exists old, (firstn n b), (skipn n b). rewrite firstn_skipn. auto.
    - apply write_cases in h. destruct h as [(e & q & ->)|(s1 & made & em & hm & hc)]; [destruct i|].
      assert (M : In s' made -> s' = s1). { rewrite hm. destruct (forallb (is_dir s) (ancestors p)); [intros []|intros [<-|[]]; reflexivity]. }
      assert (D : forall d, In d (dirs s1) <-> In d (dirs s) \/ In d (ancestors p)) by (apply makedirs_dirs; exact em).
      pose proof (made_files s p s1 em) as f.
      assert (C1 : s' = s1 -> (forall q, q <> p -> dget q (files s') = dget q (files s)) /\ (forall d, In d (dirs s) -> In d (dirs s')) /\
                 (forall d, In d (dirs s') -> In d (dirs s) \/ In d (ancestors p)) /\ dget p (files s') = dget p (files s)).
      { intros ->. rewrite f. split; [auto|]. split; [intros d j; apply D; auto|]. split; [intros d j; apply D; exact j|reflexivity]. }
      assert (C2 : forall x, s' = set_file s1 p x -> (forall q, q <> p -> dget q (files s') = dget q (files s)) /\ (forall d, In d (dirs s) -> In d (dirs s')) /\
                 (forall d, In d (dirs s') -> In d (dirs s) \/ In d (ancestors p)) /\ dget p (files s') = Some x).
      { intros x ->. unfold set_file. cbn [files dirs]. rewrite f. split; [intros q n; apply dget_dset_other; congruence|]. split; [intros d j; apply D; auto|]. split; [intros d j; apply D; exact j|apply dget_dset_same]. }
      destruct hc as [(e & q & ->)|[(q & -> & _)|[(e & q & ee & ->)|(b & q & ee & ->)]]].
      + destruct (C1 (M i)) as (a & b & c & d). auto.
      + destruct (C1 (M i)) as (a & b & c & d). auto.
      + apply in_app_iff in i. destruct i as [i|[<-|[]]]; [destruct (C1 (M i)) as (a & b & c & d); auto|].
        destruct (C2 _ eq_refl) as (a & b & c & d). split; [exact a|]. split; [exact b|]. split; [exact c|]. right. exists []. auto.
      + apply in_app_iff in i. destruct i as [i|i]; [destruct (C1 (M i)) as (a & b' & c & d); auto|].
        apply in_map_iff in i. destruct i as (x & <- & ix). destruct (C2 _ eq_refl) as (a & b' & c & d). split; [exact a|]. split; [exact b'|]. split; [exact c|]. right. exists x. split; [exact d|]. right.
        unfold prefixes in ix. apply in_map_iff in ix. destruct ix as (n & <- & _). exists (skipn n b). rewrite firstn_skipn. exact ee.
  Qed.
  (** Appending adds the encoded value at the end of an existing file; a missing file is refused. *)
  Theorem append_adds : forall sv o v p s, match dget p (files s), encode sv o v with
    | Some old, Ok b => fst (append_file sv o v p s) = Ok true /\ last_state s (snd (append_file sv o v p s)) = set_file s p (old ++ b)
    | Some _, Err e => append_file sv o v p s = (Err e, [])
    | None, _ => append_file sv o v p s = (Err ValidationError, [])
    end.
  Proof.
    intros sv o v p s. unfold File_Model.append_file. destruct (dget p (files s)) as [old|]; [|reflexivity].
    destruct (File_Model.encode text charset enc locale sv o v) as [b|e]; [|reflexivity]. split; [reflexivity|].
    unfold last_state. cbn [snd]. unfold prefixes. rewrite map_map. rewrite seq_S, map_app. cbn. rewrite last_last, firstn_all. reflexivity.
  Qed.

  (** What is refused: reading what is no file or does not decode, and adding to a file what does not encode or is of the wrong kind *)
  Theorem read_refused : forall sv s p, match dget p (files s) with
    | None => read_file sv s p = Err (UserError 54)
    | Some b => s_binary sv = false -> dec (s_charset sv) b = None -> read_file sv s p = Err ValueError
    end.
  Proof. intros sv s p. unfold File_Model.read_file. destruct (dget p (files s)) as [b|]; [|reflexivity]. intros -> ->. reflexivity. Qed.
  Theorem append_refused : forall sv o v p s old, Plain sv o -> dget p (files s) = Some old ->
    (match v with Txt _ => s_binary sv = true | Bin _ => s_binary sv = false end -> append_file sv o v p s = (Err TypeError, [])) /\
    (forall t, v = Txt t -> s_binary sv = false -> enc (s_charset sv) t = None -> append_file sv o v p s = (Err ValueError, [])).
  Proof.
    intros sv o v p s old [hb hc] hf. unfold File_Model.append_file. rewrite hf. unfold File_Model.encode. split.
    - intros h. destruct v as [t|b]; rewrite h in *; [|reflexivity]. destruct hb as [-> | ->]; reflexivity.
    - intros t -> e en. rewrite e in *. destruct hc as [-> | ->]; rewrite en; reflexivity.
  Qed.

  (** ** histories: saves of any values to any paths *)
  Fixpoint saves (sv : saver) (o : fopts) (xs : list (content * path)) (s : fs) : res fs :=
    match xs with
    | [] => Ok s
    | (v, p) :: xs' => match write_file sv o v p s with
                       | (Ok _, tr) => saves sv o xs' (last_state s tr)
                       | (Err e, _) => Err e
                       end
    end.
  (** the value last saved to a path *)
  Fixpoint last_saved (p : path) (xs : list (content * path)) : option content :=
    match xs with
    | [] => None
    | (v, q) :: xs' => match last_saved p xs' with Some c => Some c | None => if eq_dec p q then Some v else None end
    end.
  Lemma write_other sv o v p s w tr q : write_file sv o v p s = (Ok w, tr) -> q <> p -> dget q (files (last_state s tr)) = dget q (files s).
  Proof.
    intros h n. destruct tr as [|s0 tr]; [reflexivity|].
    assert (i : In (last_state s (s0 :: tr)) (s0 :: tr)). { unfold last_state. clear. revert s0. induction tr as [|x tr IH]; intros s0; [left; reflexivity|]. right. cbn. apply IH. }
    eapply (save_every_point false sv o v p s (Ok w) (s0 :: tr)); [exact h|exact i|exact n].
  Qed.
  Theorem save_history : Codec -> forall sv o xs s s', Plain sv o -> saves sv o xs s = Ok s' ->
    forall p, match last_saved p xs with
              | Some v => read_file sv s' p = Ok v
              | None => dget p (files s') = dget p (files s)
              end.
  Proof.
    intros cd sv o xs. induction xs as [|[v q] xs IH]; intros s s' pl h p; cbn in *; [inversion h; reflexivity|].
    destruct (write_file sv o v q s) as [[w|e] tr] eqn:ew; [|discriminate]. specialize (IH _ _ pl h p).
    destruct (last_saved p xs) as [c|] eqn:el; [exact IH|]. destruct (eq_dec p q) as [->|n].
    - pose proof (save_stores cd sv o v q s w tr pl ew) as st. unfold File_Model.read_file in *. rewrite IH. exact st.
    - rewrite IH. eapply write_other; eassumption.
  Qed.
End Files.
Print Assumptions save_stores.
Print Assumptions save_same_untouched.
Print Assumptions save_idempotent.
Print Assumptions save_every_point.
Print Assumptions append_adds.
Print Assumptions read_refused.
Print Assumptions append_refused.
Print Assumptions save_history.

(** ** a concrete codec: texts are latin-1 texts; ascii, latin-1 and utf-16 (little endian, without mark) *)
Inductive cset := Ascii7 | Latin1 | Utf16.
Definition enc0 (c : cset) (t : list ascii) : option bytes :=
  match c with
  | Ascii7 => if forallb (fun x => Nat.ltb (nat_of_ascii x) 128) t then Some t else None
  | Latin1 => Some t
  | Utf16 => Some (flat_map (fun x => [x; zero]) t)
  end.
Fixpoint dec16 (b : bytes) : option (list ascii) :=
  match b with
  | [] => Some []
  | x :: z :: b' => if beq z zero then match dec16 b' with Some t => Some (x :: t) | None => None end else None
  | _ => None
  end.
Definition dec0 (c : cset) (b : bytes) : option (list ascii) :=
  match c with Ascii7 => if forallb (fun x => Nat.ltb (nat_of_ascii x) 128) b then Some b else None | Latin1 => Some b | Utf16 => dec16 b end.
Example codec0 : Codec enc0 dec0.
Proof.
  intros [] t b h; cbn in *.
  - destruct (forallb _ t) eqn:e; inversion h; subst. rewrite e. reflexivity.
  - inversion h; reflexivity.
  - inversion h; subst. clear h. induction t as [|x t IH]; [reflexivity|]. cbn. cbn in IH. rewrite IH. reflexivity.
Qed.
Definition sv0 (c : cset) := {| s_binary := false; s_charset := c |}.
Definition plain0 : fopts cset := {| f_binary := None; f_charset := None |}.
Definition dsk : fs := {| files := [(["a"; "f"], ["1"%char])]; dirs := [[]; ["a"]] |}%string.
Example saves_case : saves enc0 dec0 Latin1 (sv0 Utf16) plain0 [(Txt ["x"%char], ["b"; "c"; "g"]); (Txt ["y"%char], ["b"; "h"]); (Txt ["z"%char], ["b"; "c"; "g"])]%string dsk
  = Ok {| files := [(["a"; "f"], ["1"%char]); (["b"; "c"; "g"], ["z"%char; zero]); (["b"; "h"], ["y"%char; zero])]%string; dirs := [[]; ["a"]; ["b"]; ["b"; "c"]]%string |}.
Proof. reflexivity. Qed.

(** A save that raises, or that is interrupted, can lose the content of the file: it is emptied before anything is written *)
Theorem save_lost_refuted :
  (exists sv v p s e, fst (write_file _ _ enc0 dec0 Latin1 sv plain0 v p s) = Err e /\ dget p (files s) = Some ["1"%char] /\
     dget p (files (last_state s (snd (write_file _ _ enc0 dec0 Latin1 sv plain0 v p s)))) = Some []) /\
  (exists sv v p s s', fst (write_file _ _ enc0 dec0 Latin1 sv plain0 v p s) = Ok true /\ In s' (snd (write_file _ _ enc0 dec0 Latin1 sv plain0 v p s)) /\
     dget p (files s) = Some ["1"%char] /\ dget p (files s') = Some []).
Proof.
  split.
  - exists (sv0 Ascii7), (Txt [ascii_of_nat 233]), ["a"; "f"]%string, dsk, ValueError. repeat split.
  - exists (sv0 Ascii7), (Txt ["2"%char]), ["a"; "f"]%string, dsk, (set_file dsk ["a"; "f"]%string []). split; [reflexivity|]. split; [left; reflexivity|]. split; reflexivity.
Qed.
Print Assumptions save_lost_refuted.
(** With the option [charset] the comparison still uses the saver's encoding: the file may keep the wrong encoding *)
Theorem save_charset_refuted : exists v p s o, f_charset o = Some Utf16 /\ write_file _ _ enc0 dec0 Latin1 (sv0 Latin1) o (Txt v) p s = (Ok false, []) /\
  exists b, dget p (files s) = Some b /\ dec0 Utf16 b <> Some v.
Proof.
  exists ["1"%char], ["a"; "f"]%string, dsk, {| f_binary := None; f_charset := Some Utf16 |}. split; [reflexivity|]. split; [reflexivity|].
  exists ["1"%char]. split; [reflexivity|discriminate].
Qed.
Print Assumptions save_charset_refuted.
(** With the option [binary] on a text saver, saving bytes to a new file raises and leaves an empty file *)
Theorem save_binary_refuted : forall b p s, existsb (is_file s) (ancestors p) = false -> is_dir s p = false -> ~ In p (ancestors p) -> dget p (files s) = None ->
  forall tr r, write_file _ _ enc0 dec0 Latin1 (sv0 Latin1) {| f_binary := Some true; f_charset := None |} (Bin b) p s = (r, tr) ->
  r = Err TypeError /\ dget p (files (last_state s tr)) = Some [].
Proof.
  intros b p s nf nd na nx tr r h. unfold write_file, makedirs in h. rewrite nf in h.
  assert (d : is_dir {| files := files s; dirs := dirs s ++ filter (fun d => negb (is_dir s d)) (ancestors p) |} p = false).
  { unfold is_dir at 1; cbn [dirs]; apply mem_not_In. intros i. apply in_app_iff in i. destruct i as [i|i]; [unfold is_dir in nd; apply mem_not_In in nd; contradiction|]. apply filter_In in i. destruct i. contradiction. }
  rewrite d in h. unfold is_file, dmem in h. cbn [files] in h. rewrite nx in h. cbn in h. inversion h; subst. split; [reflexivity|].
  unfold last_state. rewrite last_last. cbn. apply dget_dset_same.
Qed.
Print Assumptions save_binary_refuted.
