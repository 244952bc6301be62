(** C90: what a log message shows of a value. *)
From Verif Require Import Base Lf_Model Lf_Spec Str_Model Str_Spec Str_Props Lf_Proofs.
From Coq Require Import Sorting.Permutation Sorting.Sorted DecimalString NArith Lia.
Local Open Scope string_scope.
Local Open Scope list_scope.

(** Lists and tuples nested at most two deep: the first ten elements are shown as [repr] shows them, how many are left out is told,
    and the line is cut at 1200 characters. *)
Theorem log_list_exact : forall k l b,
  Nested 2 (LSeq KList (firstn 10 l)) -> Shown (LSeq KList (firstn 10 l)) (chars "[" ++ b ++ chars "]") ->
  exists m t, More 10 (length l) m /\ Cut (chars "]") (chars "[" ++ b ++ m ++ chars "]") t /\ log_format (LSeq k l) = Ok (Line t).
Proof.
  intros k l b hn hs. pose proof (shown_exact 2 _ _ hn hs) as e.
  destruct (shortened_exact (length l) (chars "[" ++ b) "]"%char) as (m & hm & hc). destruct (shortened_ok (length l) (chars "[" ++ b) "]"%char) as (r & er).
  exists m, r. split; [exact hm|]. specialize (hc r er). split; [rewrite <- app_assoc in hc; exact hc|].
  unfold log_format. change depth with 2. change max_el with 10. rewrite e. rewrite app_assoc. change (chars "]") with ["]"%char]. rewrite er. cbn [rbind].
  rewrite narrow; [reflexivity|]. apply cut_length in hc. lia.
Qed.
Print Assumptions log_list_exact.
(** the same for mappings: the first ten members inserted, in alphabetical order *)
Theorem log_map_exact : forall l b,
  Nested 2 (LMap (firstn 10 l)) -> Shown (LMap (firstn 10 l)) (chars "{" ++ b ++ chars "}") ->
  exists m t, More 10 (length l) m /\ Cut (chars "}") (chars "{" ++ b ++ m ++ chars "}") t /\ log_format (LMap l) = Ok (Line t).
Proof.
  intros l b hn hs. pose proof (shown_exact 2 _ _ hn hs) as e.
  destruct (shortened_exact (length l) (chars "{" ++ b) "}"%char) as (m & hm & hc). destruct (shortened_ok (length l) (chars "{" ++ b) "}"%char) as (r & er).
  exists m, r. split; [exact hm|]. specialize (hc r er). split; [rewrite <- app_assoc in hc; exact hc|].
  unfold log_format. change depth with 2. change max_el with 10. rewrite e. rewrite app_assoc. change (chars "}") with ["}"%char]. rewrite er. cbn [rbind].
  rewrite narrow; [reflexivity|]. apply cut_length in hc. lia.
Qed.
Print Assumptions log_map_exact.

Definition demo_list : list lv := [LText (chars "it's"); LSeq KTup [LOther (chars "1")]; LMap [(chars "b", LOther (chars "2")); (chars "a", LSeq KList [])]].
Lemma demo_list_shown : Nested 2 (LSeq KList (firstn 10 demo_list)) /\
  Shown (LSeq KList (firstn 10 demo_list)) (chars "[" ++ chars """it's"", (1,), {'a': [], 'b': 2}" ++ chars "]").
Proof.
  split.
  - constructor. intros v [<- |[<- |[<- |[]]]]; repeat constructor.
    + intros w [<- |[]]. constructor.
    + intros k w [e|[e|[]]]; injection e as <- <-; constructor.
  - cbn [firstn demo_list]. apply shown_list with (ts := [chars """it's"""; chars "(1,)"; chars "{'a': [], 'b': 2}"]).
    + constructor; [apply shown_text|]. constructor; [apply (shown_single (LOther (chars "1")) (chars "1")); constructor|]. constructor; [|constructor].
      apply (shown_map _ [(chars "a", LSeq KList []); (chars "b", LOther (chars "2"))] [chars "'a': []"; chars "'b': 2"] (chars "'a': [], 'b': 2")).
      * apply perm_swap.
      * repeat constructor.
      * constructor; [exists (chars "[]"); split; [apply (shown_list [] [] []); constructor|reflexivity]|].
        constructor; [exists (chars "2"); split; [constructor|reflexivity]|constructor].
      * apply (listed_more (chars "'a': []") [chars "'b': 2"] (chars "'b': 2")); [discriminate|constructor].
    + apply (listed_more (chars """it's""") [chars "(1,)"; chars "{'a': [], 'b': 2}"] (chars "(1,), {'a': [], 'b': 2}")); [discriminate|].
      apply (listed_more (chars "(1,)") [chars "{'a': [], 'b': 2}"] (chars "{'a': [], 'b': 2}")); [discriminate|]. constructor.
Qed.
Example log_list_ex : log_format (LSeq KList demo_list) = Ok (Line (chars "[""it's"", (1,), {'a': [], 'b': 2}]")).
Proof. vm_compute. reflexivity. Qed.

(** Two texts look the same in the log exactly when they are as long and their first forty characters are the same; and the line is
    short. (The number of digits of the length of a text is far below 2000.) *)
Theorem log_text_tells : forall k s s', 0 < k <= 1000 -> length s < 10 ^ k -> length s' < 10 ^ k ->
  (log_format (LText s) = log_format (LText s') <-> firstn 40 s = firstn 40 s' /\ length s = length s').
Proof.
  intros k s s' hk h h'.
  assert (E : forall s, length s < 10 ^ k -> log_format (LText s) = Ok (Line (text_shown s))).
  { clear -hk. intros s h. unfold log_format, text_shown. change max_strl with 40. change depth with 2. pose proof (text_shown_length s k h ltac:(lia)) as l. unfold text_shown in l.
    revert l. destruct (Nat.leb 40 (length s)); intros l; cbn [rbind safe_repr]; (rewrite narrow; [reflexivity|lia]). }
  rewrite (E s h), (E s' h'). clear E. split.
  - intros e. assert (e' : text_shown s = text_shown s') by congruence. clear e. unfold text_shown in e'. apply repr_inj in e'.
    destruct (Nat.leb_spec 40 (length s)) as [g|g], (Nat.leb_spec 40 (length s')) as [g'|g'].
    + assert (ef : firstn 40 s = firstn 40 s').
      { apply (f_equal (firstn 40)) in e'. rewrite !firstn_app, !firstn_firstn, !firstn_length_le in e' by assumption. cbn [Nat.min Nat.sub] in e'.
        rewrite !firstn_O, !app_nil_r in e'. exact e'. }
      split; [exact ef|]. rewrite ef in e'. apply app_inv_head in e'. apply mark_inj in e'. lia.
    + exfalso. apply (f_equal (@length _)) in e'. rewrite app_length, firstn_length_le in e' by exact g. lia.
    + exfalso. apply (f_equal (@length _)) in e'. rewrite app_length, firstn_length_le in e' by exact g'. lia.
    + subst. split; reflexivity.
  - intros (ef & el). unfold text_shown. rewrite <- el. destruct (Nat.leb_spec 40 (length s)) as [g|g]; [rewrite ef; reflexivity|].
    rewrite !firstn_all2 in ef by lia. rewrite ef. reflexivity.
Qed.
Print Assumptions log_text_tells.
(** a text of fewer than forty characters is shown by its [repr], a longer one by that of its beginning, with what is left out told *)
Theorem log_text_exact : forall k s, 0 < k <= 1000 -> length s < 10 ^ k ->
  exists m, More 40 (length s) m /\ log_format (LText s) = Ok (Line (repr (firstn 40 s ++ m))).
Proof.
  intros k s hk h. pose proof (text_shown_length s k h ltac:(lia)) as l. unfold text_shown in l.
  unfold log_format. change max_strl with 40. change depth with 2. revert l. destruct (Nat.leb_spec 40 (length s)) as [g|g]; intros l; cbn [rbind safe_repr].
  - exists (mark (length s - 40)). split; [unfold mark; constructor; lia|]. rewrite narrow; [reflexivity|lia].
  - exists []. split; [constructor; exact g|]. rewrite app_nil_r, firstn_all2 by lia. rewrite narrow; [reflexivity|lia].
Qed.
Print Assumptions log_text_exact.
Example log_text_ex :
  log_format (LText (chars "a\b""c'd")) = Ok (Line (chars "'a\\b""c\'d'")) /\
  log_format (LText (chars "0123456789012345678901234567890123456789abc")) = Ok (Line (chars "'0123456789012345678901234567890123456789+3...'")).
Proof. vm_compute. split; reflexivity. Qed.

(** [repr] of a text is a literal of python: the text between quotes, double ones when it has single quotes and no double ones *)
Theorem repr_literal : forall s, exists q b,
  repr s = q :: b ++ [q] /\ Body q b s /\ (q = "'"%char \/ q = "034"%char) /\ (q = "034"%char <-> In "'"%char s /\ ~ In "034"%char s).
Proof.
  intros s. exists (quote s), (flat_map (esc (quote s)) s). split; [reflexivity|]. split; [apply body_all; apply quote_cases|]. split; [apply quote_cases|].
  unfold quote. destruct (mem sq s && negb (mem dq s)) eqn:eb.
  - apply andb_true_iff in eb. destruct eb as (e1 & e2). apply mem_In in e1. apply negb_true_iff in e2. apply (proj1 (mem_not_In _ _ _)) in e2. split; [intros _; split; assumption|reflexivity].
  - split; [discriminate|]. intros (h1 & h2). rewrite (proj2 (mem_In _ sq s) h1), (proj2 (mem_not_In _ dq s) h2) in eb. discriminate.
Qed.
Print Assumptions repr_literal.
Example repr_ex : repr (chars "it's") = chars """it's""" /\ repr ["010"; "128"; "\"]%char = chars "'\n\x80\\'".
Proof. split; reflexivity. Qed.

(** However large, a list, tuple or mapping takes at most 1204 characters of the log, and a text at most 178 characters and four
    times the digits of its length. *)
Theorem log_bounded : forall v w, log_format v = Ok w ->
  match v with
  | LSeq _ _ | LMap _ => exists t, w = Line t /\ length t <= 1204
  | LText s => forall k, 0 < k <= 1000 -> length s < 10 ^ k -> exists t, w = Line t /\ length t <= 178 + 4 * k
  | _ => True
  end.
Proof.
  intros v w e. destruct v as [s|t|t|k l|items]; try exact I.
  - intros k hk h. pose proof (text_shown_length s k h ltac:(lia)) as hl. exists (text_shown s). split; [|exact hl].
    unfold log_format in e. change max_strl with 40 in e. change depth with 2 in e. unfold text_shown in *.
    revert hl e. destruct (Nat.leb 40 (length s)); intros hl e; cbn [rbind safe_repr] in e; rewrite narrow in e by lia; apply ok_inj in e; symmetry; exact e.
  - unfold log_format in e. change depth with 2 in e. destruct (safe_ends_seq 1 (firstn max_el l)) as (a & ea). rewrite ea in e.
    destruct (shortened_exact (length l) a "]"%char) as (m & _ & hc). destruct (shortened_ok (length l) a "]"%char) as (r & er).
    specialize (hc r er). change (chars "]") with ["]"%char] in e. rewrite er in e. cbn [rbind] in e. apply cut_length in hc.
    rewrite narrow in e by lia. apply ok_inj in e. exists r. split; [symmetry; exact e|exact hc].
  - unfold log_format in e. change depth with 2 in e. destruct (safe_ends_map 1 (firstn max_el items)) as (a & ea). rewrite ea in e.
    destruct (shortened_exact (length items) a "}"%char) as (m & _ & hc). destruct (shortened_ok (length items) a "}"%char) as (r & er).
    specialize (hc r er). change (chars "}") with ["}"%char] in e. rewrite er in e. cbn [rbind] in e. apply cut_length in hc.
    rewrite narrow in e by lia. apply ok_inj in e. exists r. split; [symmetry; exact e|exact hc].
Qed.
Print Assumptions log_bounded.
(** only sets cannot be shown *)
Theorem log_defined : forall v, (exists w, log_format v = Ok w) <-> (forall t, v <> LSet t).
Proof.
  intros v. split.
  - intros (w & e) t ->. discriminate.
  - intros ns. destruct v as [s|t|t|k l|items]; [apply log_text_ok|eexists; reflexivity|destruct (ns t eq_refl)| |].
    + unfold log_format. change depth with 2. destruct (safe_ends_seq 1 (firstn max_el l)) as (a & ea). rewrite ea.
      destruct (shortened_ok (length l) a "]"%char) as (r & er). change (chars "]") with ["]"%char]. rewrite er. eexists. reflexivity.
    + unfold log_format. change depth with 2. destruct (safe_ends_map 1 (firstn max_el items)) as (a & ea). rewrite ea.
      destruct (shortened_ok (length items) a "}"%char) as (r & er). change (chars "}") with ["}"%char]. rewrite er. eexists. reflexivity.
Qed.
Print Assumptions log_defined.

(** Values are not shown faithfully in these cases. A set cannot be logged at all. *)
Theorem log_set_refuted : forall t, log_format (LSet t) = Err TypeError.
Proof. reflexivity. Qed.
Print Assumptions log_set_refuted.
(** What is nested three deep is not shown: any two lists that are not empty look the same there. *)
Theorem log_deep_refuted : forall k x l y l', log_format (LSeq k [LSeq KList [LSeq KList (x :: l)]]) = log_format (LSeq k [LSeq KList [LSeq KList (y :: l')]]).
Proof. reflexivity. Qed.
Print Assumptions log_deep_refuted.
(** In its place there are dots, in the brackets of what is not shown. *)
Theorem log_deep_shown : forall k x l y m,
  log_format (LSeq k [LSeq KList [LSeq KList (x :: l)]]) = Ok (Line (chars "[[[...]]]")) /\
  log_format (LSeq k [LSeq KList [LMap (y :: m)]]) = Ok (Line (chars "[[{...}]]")).
Proof. split; reflexivity. Qed.
Print Assumptions log_deep_shown.
(** A tuple is shown as the list of its elements. *)
Theorem log_tuple_refuted : forall l, log_format (LSeq KTup l) = log_format (LSeq KList l).
Proof. reflexivity. Qed.
Print Assumptions log_tuple_refuted.
(** A text of forty characters is shown as one with more of them: with "+0..." at its end. *)
Theorem log_limit_refuted : forall s, length s = 40 -> log_format (LText s) = Ok (Line (repr (s ++ chars "+0..."))).
Proof.
  intros s h. destruct (log_text_exact 2 s ltac:(lia) ltac:(rewrite h; cbn; lia)) as (m & hm & e). rewrite e, firstn_all2 by lia. f_equal. f_equal. f_equal. f_equal.
  inversion hm as [g|d g]; [lia|]. assert (d = 0) by lia. subst d. reflexivity.
Qed.
Print Assumptions log_limit_refuted.

(** Formatting a message: [str] of a lazy message shows the arguments asked for. *)
Theorem lazy_first : forall fmt a n b v t, length a = n -> log_format v = Ok (Line t) ->
  lazy_str fmt {| l_args := a ++ v :: b; l_to_format := [n] |} = (Ok (fmt (a ++ LText t :: b)), {| l_args := a ++ LText t :: b; l_to_format := [n] |}).
Proof.
  intros fmt a n b v t hn e. unfold lazy_str. cbn [l_args l_to_format format_args].
  rewrite nth_error_app2 by lia. replace (n - length a) with 0 by lia. cbn [nth_error]. rewrite e. cbn [rbind].
  assert (es : set_nth n (LText t) (a ++ v :: b) = a ++ LText t :: b).
  { unfold set_nth. rewrite firstn_app, skipn_app. subst n. rewrite firstn_all. replace (length a - length a) with 0 by lia.
    rewrite skipn_all2 by lia. replace (S (length a) - length a) with 1 by lia. cbn. rewrite app_nil_r. reflexivity. }
  rewrite es. reflexivity.
Qed.
Print Assumptions lazy_first.
Example lazy_first_ex : forall fmt, fst (lazy_str fmt {| l_args := [LOther (chars "1"); LText (chars "ab")]; l_to_format := [1] |}) = Ok (fmt [LOther (chars "1"); LText (chars "'ab'")]).
Proof. reflexivity. Qed.
(** Asked again, as a second handler of the logger does, it formats the text already formatted: the message is never the same. *)
Theorem lazy_again_refuted : forall fmt a n b v t r z, length a = n -> log_format v = Ok (Line t) ->
  (forall s s', fmt (a ++ LText s :: b) = fmt (a ++ LText s' :: b) -> s = s') ->
  lazy_str fmt {| l_args := a ++ v :: b; l_to_format := [n] |} = (Ok r, z) -> forall r', fst (lazy_str fmt z) = Ok r' -> r' <> r.
Proof.
  intros fmt a n b v t r z hn e inj h r' h'. rewrite (lazy_first fmt a n b v t hn e) in h. injection h as <- <-.
  destruct (log_text_ok t) as (w & ew). destruct (log_text t w ew) as [-> | ->].
  - rewrite (lazy_first fmt a n b _ _ hn ew) in h'. cbn [fst] in h'. injection h' as <-. intros er. apply inj in er. exact (text_shown_moves _ er).
  - unfold lazy_str in h'. cbn [l_args l_to_format format_args] in h'. rewrite nth_error_app2 in h' by lia.
    replace (n - length a) with 0 in h' by lia. cbn [nth_error] in h'. rewrite ew in h'. discriminate.
Qed.
Print Assumptions lazy_again_refuted.
Example lazy_again_ex : let fmt := fun args => match args with [LText s] => s | _ => [] end in
  let '(first, z) := lazy_str fmt {| l_args := [LText (chars "ab")]; l_to_format := [0] |} in
  first = Ok (chars "'ab'") /\ fst (lazy_str fmt z) = Ok (chars """'ab'""").
Proof. split; reflexivity. Qed.
