(** C17: string helpers. *)
From Verif Require Import Str_Model Str_Spec Str_Proofs.

(** rreplace replaces the last occurrences, from the right, at most [n] of them *)
Theorem rreplace_from_right : forall s old new n, old <> [] -> forall r,
  rreplace s old new (Z.of_nat n) = Ok r <-> RRepl old new n s r.
Proof.
  intros s old new n ne r. destruct (rreplace_spec s old new n ne) as (r0 & e & h). rewrite e. split.
  - injection 1 as <-. exact h.
  - intros h'. f_equal. exact (RRepl_det _ _ _ _ _ h _ h').
Qed.
Print Assumptions rreplace_from_right.

Theorem rreplace_empty_raises : forall s new n, rreplace s [] new n = Err ValueError.
Proof. reflexivity. Qed.
Print Assumptions rreplace_empty_raises.

(** the default call: only the last occurrence changes *)
Theorem rreplace_last : forall a old b new, old <> [] ->
  (forall a2, OccursAt old (a ++ old ++ b) a2 -> length a2 <= length a) ->
  rreplace (a ++ old ++ b) old new 1 = Ok (a ++ new ++ b).
Proof. intros a old b new ne h. apply (rreplace_from_right _ _ _ 1 ne). apply RR_last; [exact h|constructor]. Qed.
Print Assumptions rreplace_last.

Example rreplace_ex :
  rreplace (list_ascii_of_string "a-b-c-d") (list_ascii_of_string "-") (list_ascii_of_string "+") 2 = Ok (list_ascii_of_string "a-b+c+d")
  /\ rreplace (list_ascii_of_string "aaa") (list_ascii_of_string "aa") (list_ascii_of_string "x") 5 = Ok (list_ascii_of_string "ax")
  /\ rreplace (list_ascii_of_string "aaa") (list_ascii_of_string "b") (list_ascii_of_string "x") 1 = Ok (list_ascii_of_string "aaa").
Proof. repeat split. Qed.

Theorem shorten_short_unchanged : forall s n, length s <= n -> shorten s n = s.
Proof. intros s n h. unfold shorten. destruct (Nat.ltb_spec n (length s)); [lia|reflexivity]. Qed.
Print Assumptions shorten_short_unchanged.

Theorem shorten_long_truncated : forall s n, n < length s ->
  exists a b, s = a ++ b /\ length a = n /\ shorten s n = a ++ ["."; "."; "."]%char.
Proof.
  intros s n h. unfold shorten. destruct (Nat.ltb_spec n (length s)); [|lia].
  exists (firstn n s), (skipn n s). split; [symmetry; apply firstn_skipn|]. split; [apply firstn_length_le; lia|reflexivity].
Qed.
Print Assumptions shorten_long_truncated.

(** multiple_replace reads the text once as a sequence of pieces, and replaces the key pieces; a replacement is never
    rescanned *)
Theorem multiple_replace_single_pass : forall s kvs, kvs <> [] -> keys_nonempty kvs ->
  exists ps, s = flat_map piece_in ps /\ GoodPieces kvs ps /\ multiple_replace s kvs = Ok (flat_map piece_out ps).
Proof.
  intros s kvs ne nk. destruct (mreplace_pieces kvs nk (S (length s)) s (Nat.lt_succ_diag_r _)) as (ps & e & g & h).
  exists ps. split; [exact e|]. split; [exact g|]. unfold multiple_replace. destruct kvs; [congruence|]. rewrite h. reflexivity.
Qed.
Print Assumptions multiple_replace_single_pass.

(** that reading is unique, so the previous theorem determines the result *)
Theorem multiple_replace_reading_unique : forall kvs, keys_nonempty kvs -> NoDup (map fst kvs) -> forall ps qs,
  GoodPieces kvs ps -> GoodPieces kvs qs -> flat_map piece_in ps = flat_map piece_in qs -> ps = qs.
Proof. exact GoodPieces_det. Qed.
Print Assumptions multiple_replace_reading_unique.

Theorem multiple_replace_identity : forall s kvs, kvs <> [] -> keys_nonempty kvs ->
  (forall k v, In (k, v) kvs -> k = v) -> multiple_replace s kvs = Ok s.
Proof.
  intros s kvs ne nk id. destruct (multiple_replace_single_pass s kvs ne nk) as (ps & e & g & ->). f_equal. rewrite e. clear e.
  induction ps as [|p ps IH]; [reflexivity|]. destruct g as (h & g). cbn [flat_map]. f_equal; [|apply IH; exact g].
  destruct p as [c|k v]; [reflexivity|]. destruct h as (l1 & l2 & ek & _). symmetry. apply id. rewrite ek. apply in_app_iff. right. left. reflexivity.
Qed.
Print Assumptions multiple_replace_identity.

(** Finding: an empty replacement table raises KeyError instead of leaving the text unchanged (the empty pattern matches
    '' and '' is not a key, str_utils.py:146-150). *)
Theorem multiple_replace_empty_table_raises : forall s, multiple_replace s [] = Err KeyError.
Proof. reflexivity. Qed.
Print Assumptions multiple_replace_empty_table_raises.

Example multiple_replace_ex :
  multiple_replace (list_ascii_of_string "abcab") [(list_ascii_of_string "ab", list_ascii_of_string "c"); (list_ascii_of_string "c", list_ascii_of_string "ab")]
  = Ok (list_ascii_of_string "cabc").
Proof. reflexivity. Qed.

(** split_string cuts at every delimiter character: no piece contains one, and weaving the delimiters back in gives the
    text *)
Theorem split_string_pieces : forall s delims, delims <> [] ->
  let ws := split_string s delims false in
  (forall w x, In w ws -> In x w -> ~ In x delims) /\
  length ws = S (length (filter (fun x => mem x delims) s)) /\
  weave ws (filter (fun x => mem x delims) s) = s.
Proof.
  intros s delims ne. unfold split_string. destruct delims as [|d0 ds]; [congruence|]. cbn zeta. rewrite map_id.
  split; [exact (split_any_free (d0 :: ds) s)|]. split; [exact (split_any_count (d0 :: ds) s)|exact (split_any_weave (d0 :: ds) s)].
Qed.
Print Assumptions split_string_pieces.

Example split_string_ex : split_string (list_ascii_of_string "a; b ,c") (list_ascii_of_string ";,") true = map list_ascii_of_string ["a"; "b"; "c"]%string.
Proof. reflexivity. Qed.

(** white space is what Python says *)
Lemma whitespace_spec : forall c, In c whitespace <-> IsSpace c.
Proof.
  intros c. unfold IsSpace. rewrite <- (ascii_nat_embedding c). generalize (nat_ascii_bounded c). generalize (nat_of_ascii c). intros n hn.
  rewrite nat_ascii_embedding by exact hn.
  assert (h : (if mem (ascii_of_nat n) whitespace then true else false) =
              ((Nat.leb 9 n && Nat.leb n 13) || ((Nat.leb 28 n && Nat.leb n 31) || (Nat.eqb n 32 || (Nat.eqb n 133 || Nat.eqb n 160))))%bool).
  { assert (ha : forallb (fun n => Bool.eqb (if mem (ascii_of_nat n) whitespace then true else false)
              ((Nat.leb 9 n && Nat.leb n 13) || ((Nat.leb 28 n && Nat.leb n 31) || (Nat.eqb n 32 || (Nat.eqb n 133 || Nat.eqb n 160))))%bool) (seq 0 256) = true) by (vm_compute; reflexivity).
    rewrite forallb_forall in ha. apply Bool.eqb_prop. apply ha. apply in_seq. lia. }
  rewrite <- mem_In with (E := _). destruct (mem (ascii_of_nat n) whitespace); split; intros h'; try congruence.
  - symmetry in h. repeat rewrite ?orb_true_iff, ?andb_true_iff, ?Nat.leb_le, ?Nat.eqb_eq in h. exact h.
  - exfalso. symmetry in h. apply Bool.not_true_iff_false in h. apply h. repeat rewrite ?orb_true_iff, ?andb_true_iff, ?Nat.leb_le, ?Nat.eqb_eq. exact h'.
Qed.
Lemma lstrip_drops cs s : exists a, s = a ++ lstrip cs s /\ forall x, In x a -> In x cs.
Proof.
  induction s as [|x s (a & e & h)]; [exists []; split; [reflexivity|intros ? []]|]. cbn [lstrip].
  destruct (mem x cs) eqn:em.
  - exists (x :: a). split; [simpl; congruence|]. apply mem_In in em. intros y [<-|hy]; [exact em|apply h; exact hy].
  - exists []. split; [reflexivity|intros ? []].
Qed.
Lemma lstrip_first cs s c r : lstrip cs s = c :: r -> ~ In c cs.
Proof.
  induction s as [|x s IH]; [discriminate|]. cbn [lstrip]. destruct (mem x cs) eqn:em; [exact IH|]. injection 1 as -> ->.
  apply mem_not_In in em. exact em.
Qed.
Theorem strip_removes_white_space : forall s w, strip whitespace s = w <-> StripOf s w.
Proof.
  intros s w. split.
  - intros <-. unfold strip. destruct (lstrip_drops whitespace s) as (a & ea & ha).
    destruct (lstrip_drops whitespace (rev (lstrip whitespace s))) as (b & eb & hb).
    exists a, (rev b). split.
    + rewrite ea at 1. f_equal. rewrite <- (rev_involutive (lstrip whitespace s)) at 1. rewrite eb at 1. rewrite rev_app_distr. reflexivity.
    + split; [|split].
      * intros c hc. apply whitespace_spec. apply in_app_iff in hc. destruct hc as [hc|hc]; [apply ha; exact hc|]. apply in_rev in hc. apply hb. exact hc.
      * intros c r e h. apply whitespace_spec in h. revert h. apply (lstrip_first whitespace s c (r ++ rev b)).
        rewrite <- (rev_involutive (lstrip whitespace s)). rewrite eb, rev_app_distr, e. reflexivity.
      * intros r c e h. apply whitespace_spec in h. revert h. apply (lstrip_first whitespace (rev (lstrip whitespace s)) c (rev r)).
        rewrite <- (rev_involutive (lstrip whitespace (rev _))). rewrite e, rev_app_distr. reflexivity.
  - intros (a & b & -> & hs & h1 & h2).
    assert (hl : forall a t, (forall c, In c a -> IsSpace c) -> lstrip whitespace (a ++ t) = lstrip whitespace t).
    { clear. induction a as [|x a IH]; intros t h; [reflexivity|]. cbn [app lstrip].
      assert (hm : mem x whitespace = true) by (apply mem_In, whitespace_spec, h; left; reflexivity). rewrite hm. apply IH. intros c hc. apply h. right. exact hc. }
    assert (hf : forall t, (forall c r, t = c :: r -> ~ IsSpace c) -> lstrip whitespace t = t).
    { clear. intros [|c r] h; [reflexivity|]. cbn [lstrip]. assert (hm : mem c whitespace = false) by (apply mem_not_In; intros hi; apply (h c r eq_refl), whitespace_spec, hi). rewrite hm. reflexivity. }
    assert (ha : forall c, In c a -> IsSpace c) by (intros c hc; apply hs, in_app_iff; left; exact hc).
    assert (hb : forall c, In c (rev b) -> IsSpace c) by (intros c hc; apply hs, in_app_iff; right; apply in_rev; exact hc).
    unfold strip. rewrite hl by exact ha. destruct w as [|c w].
    + cbn [app]. rewrite <- (app_nil_r b). rewrite hl; [|intros c hc; apply hb; apply in_rev in hc; exact hc]. reflexivity.
    + rewrite (hf ((c :: w) ++ b)); [|intros c' r e; injection e as <- _; exact (h1 c w eq_refl)].
      rewrite rev_app_distr, hl by exact hb. rewrite hf; [apply rev_involutive|].
      intros c' r e. apply (h2 (rev r) c'). rewrite <- (rev_involutive (c :: w)), e. reflexivity.
Qed.
Print Assumptions strip_removes_white_space.
Example strip_ex : StripOf (list_ascii_of_string "  a b ") (list_ascii_of_string "a b") /\ StripOf ["009"; "010"]%char [].
Proof. split; apply strip_removes_white_space; reflexivity. Qed.

(** with stripping (the default), the pieces are the same ones without their surrounding white space, in the same order *)
Theorem split_string_stripped : forall s delims, delims <> [] -> Forall2 StripOf (split_string s delims false) (split_string s delims true).
Proof.
  intros s delims ne. unfold split_string. destruct delims as [|d ds]; [congruence|]. rewrite map_id. generalize (split_any (d :: ds) s). intros l.
  induction l as [|w l IH]; constructor; [apply strip_removes_white_space; reflexivity|exact IH].
Qed.
Print Assumptions split_string_stripped.
(** without delimiters the text is one piece, not stripped *)
Theorem split_string_no_delimiter : forall s b, split_string s [] b = [s].
Proof. reflexivity. Qed.
Print Assumptions split_string_no_delimiter.

(** inline writes every newline as backslash, n and nothing else changes *)
Theorem inline_newlines : forall s out, inline s = out <-> Inlined s out.
Proof.
  assert (hc : forall c s, c <> "010"%char -> inline (c :: s) = c :: inline s).
  { intros c s h. unfold inline. cbn [split_char]. destruct (split_char "010" s) as [|w ws] eqn:e; [|destruct (beq_spec _ c "010"%char); [congruence|destruct ws; reflexivity]].
    exfalso. revert e. clear. destruct s as [|x s]; [discriminate|]. cbn [split_char]. destruct (split_char "010" s); [discriminate|]. destruct (beq x "010"%char); discriminate. }
  assert (hn : forall s, inline ("010"%char :: s) = ["\"; "n"]%char ++ inline s).
  { intros s. unfold inline. cbn [split_char]. destruct (split_char "010" s) as [|w ws] eqn:e.
    - exfalso. revert e. clear. destruct s as [|x s]; [discriminate|]. cbn [split_char]. destruct (split_char "010" s); [discriminate|]. destruct (beq x "010"%char); discriminate.
    - rewrite beq_refl. reflexivity. }
  intros s out. split.
  - intros <-. induction s as [|c s IH]; [constructor|]. destruct (beq_spec _ c "010"%char) as [->|h].
    + rewrite hn. constructor. exact IH.
    + rewrite hc by exact h. constructor; assumption.
  - induction 1 as [|s out h IH|c s out hne h IH]; [reflexivity| |].
    + rewrite hn, IH. reflexivity.
    + rewrite hc, IH by exact hne. reflexivity.
Qed.
Print Assumptions inline_newlines.
Theorem inline_one_line : forall s, ~ In "010"%char (inline s).
Proof.
  intros s. assert (h : Inlined s (inline s)) by (apply inline_newlines; reflexivity). revert h. generalize (inline s). intros out.
  induction 1 as [|s out h IH|c s out hne h IH]; [intros []| |].
  - intros [e|[e|h']]; [discriminate|discriminate|exact (IH h')].
  - intros [e|h']; [exact (hne e)|exact (IH h')].
Qed.
Print Assumptions inline_one_line.
Example inline_ex : inline (list_ascii_of_string "a" ++ ["010"%char] ++ list_ascii_of_string "b") = list_ascii_of_string "a\nb".
Proof. reflexivity. Qed.

(** a negative number of occurrences means all of them *)
Theorem rreplace_negative_all : forall s old new z, (z < 0)%Z -> old <> [] -> rreplace s old new z = rreplace s old new (Z.of_nat (length s)).
Proof.
  intros s old new z hz ne. unfold rreplace, rsplit. destruct old as [|c o]; [congruence|].
  destruct (Z.ltb_spec z 0); [|lia]. destruct (Z.ltb_spec (Z.of_nat (length s)) 0); [lia|]. rewrite Nat2Z.id. reflexivity.
Qed.
Print Assumptions rreplace_negative_all.
