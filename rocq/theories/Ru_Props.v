From Verif Require Import Base Coll_Model Coll_Proofs Str_Model Ru_Model Ru_Spec Ru_Proofs.
From Coq Require Import Lia Arith.
Local Open Scope list_scope.
Local Open Scope char_scope.

Definition at_host (h : str) (p : str) : url := {| u_host := h; u_path := p |}.

(** ** the relative URL *)
(** With [c] the longest common part of the directory of the base and the target, it goes up once for each name of the
    directory that is left, then down along the target; it is "." when there is nothing to do. *)
Theorem relative_url_exact : forall cwd h t b c x y, Names t -> Names b -> dir_of b = c ++ x -> t = c ++ y ->
  (x = [] \/ y = [] \/ exists u v x' y', x = u :: x' /\ y = v :: y' /\ u <> v) ->
  relative_url cwd (at_host h (path_of t)) (at_host h (path_of b)) =
  Ok (match x, y with [], [] => dot | _, _ => ljoin ["/"] (repeat dots (length x) ++ y) end).
Proof.
  intros cwd h t b c x y ht hb ed et hd. unfold relative_url. cbn [u_host u_path at_host]. rewrite (beq_refl _ h). cbn [negb].
  rewrite (relpath_names cwd t b c x y ht hb ed et hd). f_equal. destruct x as [|x0 x]; [destruct y; reflexivity|reflexivity].
Qed.
(** It does not depend on the directory the program runs in. *)
Theorem relative_url_anywhere : forall cwd cwd' h t b, Names t -> Names b ->
  relative_url cwd (at_host h (path_of t)) (at_host h (path_of b)) = relative_url cwd' (at_host h (path_of t)) (at_host h (path_of b)).
Proof.
  intros cwd cwd' h t b ht hb. destruct (common_split (dir_of b) t) as (c & x & y & e1 & e2 & _ & hd).
  rewrite (relative_url_exact cwd h t b c x y ht hb e1 e2 hd), (relative_url_exact cwd' h t b c x y ht hb e1 e2 hd). reflexivity.
Qed.
(** Only URLs of the same host have one. *)
Theorem relative_url_hosts : forall cwd t b, u_host t <> u_host b <-> relative_url cwd t b = Err ValueError.
Proof.
  intros cwd t b. unfold relative_url. destruct (beq (u_host b) (u_host t)) eqn:e; cbn [negb].
  - apply beq_true in e. split; [intros h; destruct (h (eq_sym e))|discriminate].
  - apply beq_false in e. split; [reflexivity|]. intros _ h. exact (e (eq_sym h)).
Qed.

(** ** resolving it *)
Lemma join_relative t b c x y L : Names t -> Names b -> dir_of b = c ++ x -> t = c ++ y ->
  L = match x, y with [], [] => [dot] | _, _ => repeat dots (length x) ++ y end ->
  url_join (path_of b) (ljoin ["/"] L) = match y with [] => path_of t ++ ["/"] | _ => path_of t end.
Proof.
  intros ht hb ed et eL.
  assert (hy : Names y) by (intros s i; apply ht; rewrite et; apply in_or_app; right; exact i).
  assert (hdir : Names (dir_of b)).
  { intros s i. apply hb. unfold dir_of in i. destruct b as [|b0 b']; [destruct i|]. destruct (@exists_last _ (b0 :: b') ltac:(discriminate)) as (d & z & e).
    rewrite e in *. rewrite removelast_last in i. apply in_or_app. left. exact i. }
  assert (hc : Names c) by (intros s i; apply hdir; rewrite ed; apply in_or_app; left; exact i).
  assert (hx : Names x) by (intros s i; apply hdir; rewrite ed; apply in_or_app; right; exact i).
  assert (ne : L <> []) by (subst L; destruct x, y; cbn; discriminate).
  assert (hs : forall s, In s L -> s <> [] /\ ~ In "/" s).
  { assert (hdots : forall k s, In s (repeat dots k ++ y) -> s <> [] /\ ~ In "/" s).
    { intros k s i. apply in_app_or in i. destruct i as [i|i].
      - apply repeat_spec in i. subst s. split; [discriminate|]. intros [e|[e|[]]]; discriminate e.
      - destruct (hy s i) as (h1 & h2 & _). split; assumption. }
    intros s i. subst L. destruct x as [|x0 x]; [destruct y as [|y0 y]|].
    - destruct i as [<-|[]]. split; [discriminate|]. intros [e|[]]. discriminate e.
    - exact (hdots 0 s i).
    - exact (hdots _ s i). }
  rewrite (join_segments b L hb ne hs).
  assert (er : resolve [[]] (dir_of b ++ L) = [] :: t).
  { rewrite resolve_names by exact hdir.
    assert (g : forall k, k = length x -> resolve (rev (dir_of b) ++ [[]]) (repeat dots k ++ y) = [] :: t).
    { intros k ->. rewrite resolve_dots by (rewrite app_length, rev_length, ed, app_length; lia).
      rewrite skipn_app, rev_length, ed, app_length. replace (length x - (length c + length x)) with 0 by lia.
      rewrite skipn_rev, app_length. replace (length c + length x - length x) with (length c) by lia.
      rewrite firstn_app, firstn_all, Nat.sub_diag. cbn [firstn skipn]. rewrite app_nil_r.
      rewrite <- (app_nil_r y) at 1. rewrite resolve_names by exact hy. cbn [resolve]. rewrite !rev_app_distr, !rev_involutive. cbn [rev app].
      rewrite et. reflexivity. }
    subst L. destruct x as [|x0 x]; [destruct y as [|y0 y]|].
    - cbn [resolve]. rewrite <- (g 0 eq_refl). reflexivity.
    - exact (g 0 eq_refl).
    - exact (g _ eq_refl). }
  rewrite er.
  destruct y as [|y0 y'].
  - assert (el : beq (last L []) dot || beq (last L []) dots = true).
    { subst L. destruct x as [|x0 x]; [reflexivity|]. rewrite app_nil_r. cbn [length repeat].
      assert (e : forall k, last (dots :: repeat dots k) [] = dots) by (induction k as [|k IHk]; [reflexivity|]; cbn [repeat]; change (last (dots :: dots :: repeat dots k) []) with (last (dots :: repeat dots k) []); exact IHk).
      rewrite e. reflexivity. }
    unfold str in *. rewrite el. rewrite app_nil_r in et. subst t.
    change (([] :: c) ++ [[]]) with ([] :: c ++ [[]]). rewrite ljoin_root by (destruct c; discriminate). rewrite path_snoc.
    destruct (path_of c ++ ["/"]) eqn:e; [destruct (path_of c); discriminate e|reflexivity].
  - assert (el : last L [] = last (y0 :: y') []).
    { destruct (@exists_last _ (y0 :: y') ltac:(discriminate)) as (d & z & e).
      assert (g : forall k, last (repeat dots k ++ y0 :: y') [] = last (y0 :: y') []) by (intros k; rewrite e, app_assoc, !last_last; reflexivity).
      subst L. destruct x as [|x0 x]; [reflexivity|exact (g _)]. }
    assert (hl : Name (last (y0 :: y') [])).
    { destruct (@exists_last _ (y0 :: y') ltac:(discriminate)) as (d & z & e). rewrite e, last_last. apply hy. rewrite e. apply in_or_app. right. left. reflexivity. }
    unfold str in *. rewrite el. destruct (name_beq _ hl) as (e1 & e2 & _). unfold str in *. rewrite e1, e2. cbn [orb]. rewrite app_nil_r.
    rewrite ljoin_root by (rewrite et; destruct c; discriminate). destruct (path_of t) eqn:e; [|reflexivity].
    exfalso. rewrite et in e. destruct c; discriminate e.
Qed.
(** Followed from the base, it leads to the target, unless the target is the directory of the base or above it. *)
Theorem relative_url_back : forall cwd h t b, Names t -> Names b -> ~ Above t (dir_of b) ->
  exists r, relative_url cwd (at_host h (path_of t)) (at_host h (path_of b)) = Ok r /\ url_join (path_of b) r = path_of t.
Proof.
  intros cwd h t b ht hb na. destruct (common_split (dir_of b) t) as (c & x & y & e1 & e2 & _ & hd).
  rewrite (relative_url_exact cwd h t b c x y ht hb e1 e2 hd). eexists. split; [reflexivity|].
  destruct y as [|y0 y']; [destruct na; exists x; rewrite e2, app_nil_r; exact e1|].
  pose proof (join_relative t b c x (y0 :: y') _ ht hb e1 e2 eq_refl) as g. cbn iota in g. rewrite <- g. destruct x; reflexivity.
Qed.
(** There it leads to the target with a slash added. *)
Theorem relative_url_slash_refuted : forall cwd h t b, Names t -> Names b -> Above t (dir_of b) ->
  exists r, relative_url cwd (at_host h (path_of t)) (at_host h (path_of b)) = Ok r /\ url_join (path_of b) r = path_of t ++ ["/"].
Proof.
  intros cwd h t b ht hb [x e]. assert (et : t = t ++ []) by (rewrite app_nil_r; reflexivity).
  rewrite (relative_url_exact cwd h t b t x [] ht hb e et (or_intror (or_introl eq_refl))). eexists. split; [reflexivity|].
  pose proof (join_relative t b t x [] _ ht hb e et eq_refl) as g. cbn iota in g. rewrite <- g. destruct x; reflexivity.
Qed.
(** A slash at the end of the target is lost. *)
Theorem trailing_slash_refuted : forall cwd h t b, Names t ->
  relative_url cwd (at_host h (path_of t ++ ["/"])) b = relative_url cwd (at_host h (path_of t)) b.
Proof.
  intros cwd h t b ht. unfold relative_url. cbn [u_host u_path at_host]. destruct (negb _); [reflexivity|]. f_equal. unfold relpath.
  assert (e : abspath cwd ("." :: path_of t ++ ["/"]) = abspath cwd ("." :: path_of t)); [|rewrite e; reflexivity].
  rewrite abspath_names by exact ht. unfold abspath.
  assert (g : forall l w, Names l -> ~ In "/" w -> split_char "/" (w ++ path_of l ++ ["/"]) = w :: l ++ [[]]).
  { induction l as [|s l IH]; intros w hl hw; cbn [path_of flat_map app].
    - rewrite split_char_app by exact hw. reflexivity.
    - rewrite split_char_app by exact hw. f_equal. fold (path_of l). rewrite <- app_assoc. apply IH; [intros z i; apply hl; right; exact i|].
      apply (hl s). left. reflexivity. }
  change ("." :: path_of t ++ ["/"]) with (["."] ++ path_of t ++ ["/"]). rewrite (g t ["."] ht) by (intros [i|[]]; discriminate i).
  change (norm (rev cwd) (["."] :: t ++ [[]])) with (norm (rev cwd) (t ++ [[]])).
  assert (gn : forall l acc, Names l -> norm acc (l ++ [[]]) = rev acc ++ l).
  { induction l as [|s l IH]; intros acc hl; cbn [app norm]; [rewrite app_nil_r; reflexivity|].
    pose proof (hl s (or_introl eq_refl)) as hs. destruct (name_beq s hs) as (e1 & e2 & _). destruct s as [|c s]; [destruct hs; congruence|].
    rewrite e1, e2, IH by (intros z i; apply hl; right; exact i). cbn [rev]. rewrite <- app_assoc. reflexivity. }
  rewrite (gn t _ ht), rev_involutive. reflexivity.
Qed.
(** With a target that goes up at the root, the answer depends on the directory the program runs in. *)
Theorem working_directory_refuted : forall h x d b, Name x -> Name d -> Name b ->
  let t := at_host h ("/" :: dots ++ path_of [x]) in
  relative_url [] t (at_host h (path_of [d; b])) <> relative_url [[ "w" ]] t (at_host h (path_of [d; b])) \/ x = d.
Proof.
  intros h x d b hx hd hb t. destruct (eq_dec x d) as [e|ne]; [right; exact e|left].
  assert (hn : Names [d; b]) by (intros s [<-|[<-|[]]]; assumption).
  assert (es : split_char "/" ("." :: "/" :: dots ++ path_of [x]) = [dot; dots; x]).
  { change ("." :: "/" :: dots ++ path_of [x]) with (["."] ++ "/" :: ["."; "."] ++ path_of [x]).
    rewrite split_char_app by (intros [i|[]]; discriminate i). rewrite split_prefixed; [reflexivity|intros [i|[i|[]]]; discriminate i|].
    intros s [<-|[]]. exact hx. }
  assert (hxs : Names [x]) by (intros s [<-|[]]; exact hx).
  assert (ea : forall cwd, abspath cwd ("." :: "/" :: dots ++ path_of [x]) = removelast cwd ++ [x]).
  { intros cwd. unfold abspath. rewrite es.
    change (norm (rev cwd) [dot; dots; x]) with (norm (match rev cwd with [] => [] | _ :: acc' => acc' end) [x]). rewrite norm_names by exact hxs.
    f_equal. destruct cwd as [|w cwd]; [reflexivity|]. destruct (@exists_last _ (w :: cwd) ltac:(discriminate)) as (l & z & e). rewrite e.
    rewrite rev_app_distr, removelast_last. cbn [rev app]. apply rev_involutive. }
  assert (er : forall cwd, relative_url cwd t (at_host h (path_of [d; b])) =
    Ok (let s := cwd ++ [d] in let p := removelast cwd ++ [x] in
        match repeat dots (length s - common s p) ++ skipn (common s p) p with [] => dot | l => ljoin ["/"] l end)).
  { intros cwd. unfold relative_url, t. cbn [u_host u_path at_host]. rewrite (beq_refl _ h). cbn [negb]. unfold relpath.
    rewrite ea, (abs_dirname cwd [d; b] hn). reflexivity. }
  rewrite !er. cbn [removelast app length].
  assert (c1 : common [d] [x] = 0) by (cbn [common]; rewrite (proj2 (beq_false _ d x) (fun e => ne (eq_sym e))); reflexivity).
  assert (c2 : common [["w"]; d] [x] = 0 \/ common [["w"]; d] [x] = 1) by (cbn [common]; match goal with |- context [if ?q then _ else _] => destruct q end; [right|left]; reflexivity).
  cbv zeta. unfold str in *. rewrite c1. destruct hx as [hx _]. destruct x as [|c x]; [congruence|].
  destruct c2 as [-> | ->]; cbn; intros e; apply (f_equal (fun r => match r with Ok l => length l | Err _ => 0 end)) in e; cbn in e; [lia|discriminate].
Qed.

(** * examples *)
Local Open Scope string_scope.
Local Open Scope list_scope.
Definition ex_s (s : string) : str := list_ascii_of_string s.
Definition ex_rel (t b : string) : option string :=
  match relative_url [ex_s "home"; ex_s "me"] (at_host (ex_s "h") (ex_s t)) (at_host (ex_s "h") (ex_s b)) with Ok r => Some (string_of_list_ascii r) | Err _ => None end.
Definition ex_join (b r : string) : string := string_of_list_ascii (url_join (ex_s b) (ex_s r)).
Example ex_relative :
  ex_rel "/a/b/c" "/a/d/e" = Some "../b/c" /\ ex_join "/a/d/e" "../b/c" = "/a/b/c"
  /\ ex_rel "/a/b" "/a/b" = Some "b" /\ ex_rel "/x" "/a/b/c" = Some "../../x"
  /\ ex_rel "/a" "/a/b" = Some "." /\ ex_join "/a/b" "." = "/a/"
  /\ ex_rel "/a/" "/a/b" = Some "." /\ ex_rel "/a" "/a/b/c" = Some "..".
Proof. repeat split. Qed.
(** the hypotheses of [relative_url_back] *)
Example ex_names : Names [ex_s "a"; ex_s "b"; ex_s "c"] /\ Names [ex_s "a"; ex_s "d"; ex_s "e"]
  /\ ~ Above [ex_s "a"; ex_s "b"; ex_s "c"] (dir_of [ex_s "a"; ex_s "d"; ex_s "e"])
  /\ path_of [ex_s "a"; ex_s "b"; ex_s "c"] = ex_s "/a/b/c".
Proof.
  assert (h : forall c, c <> "/"%char -> c <> "."%char -> Name [c]).
  { intros c h1 h2. repeat split; try discriminate; [intros [i|[]]; exact (h1 i)|intros i; injection i as i; exact (h2 i)]. }
  split; [intros s [<-|[<-|[<-|[]]]]; apply h; discriminate|]. split; [intros s [<-|[<-|[<-|[]]]]; apply h; discriminate|].
  split; [|reflexivity]. intros [r e]. cbn in e. discriminate e.
Qed.

Print Assumptions relative_url_exact.
Print Assumptions relative_url_anywhere.
Print Assumptions relative_url_hosts.
Print Assumptions relative_url_back.
Print Assumptions relative_url_slash_refuted.
Print Assumptions trailing_slash_refuted.
Print Assumptions working_directory_refuted.
