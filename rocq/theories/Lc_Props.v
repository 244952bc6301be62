(** C101: the configuration of logs. *)
From Verif Require Import Lc_Model.
From Coq Require Import Lia.
Local Open Scope string_scope. Local Open Scope list_scope.

(** ** trees and heaps *)
Fixpoint nodes (t : tree) : nat :=
  match t with Leaf _ => 0 | Node l => S ((fix go (l : list (string * tree)) : nat := match l with [] => 0 | (_, x) :: r => nodes x + go r end) l) end.
Fixpoint nodes_list (l : list (string * tree)) : nat := match l with [] => 0 | (_, x) :: r => nodes x + nodes_list r end.
Lemma nodes_Node l : nodes (Node l) = S (nodes_list l).
Proof. reflexivity. Qed.
Lemma alloc_Node l h : alloc (Node l) h = (R (length (snd (alloc_list l h))), snd (alloc_list l h) ++ [fst (alloc_list l h)]).
Proof.
  cbn. set (go := fix go (l : list (string * tree)) (h : heap) : obj * heap := match l with [] => ([], h) | (k, x) :: r => let a := alloc x h in let b := go r (snd a) in ((k, fst a) :: fst b, snd b) end).
  assert (forall l h, go l h = alloc_list l h) as e. { clear. induction l as [|[k x] r IH]; intros h; [reflexivity|]. cbn. rewrite IH. reflexivity. }
  rewrite e. reflexivity.
Qed.

(** references at least [n] and below [m] *)
Definition cell_in (n m : nat) (c : cell) : Prop := match c with V _ => True | R r => n <= r < m end.
Definition obj_in (n m : nat) (o : obj) : Prop := forall k c, In (k, c) o -> cell_in n m c.

Definition made (t : tree) (h : heap) : Prop :=
  exists ext, snd (alloc t h) = h ++ ext /\ length ext = nodes t /\ cell_in (length h) (length h + length ext) (fst (alloc t h)) /\
    (forall o, In o ext -> obj_in (length h) (length h + length ext) o) /\
    (forall f more, nodes t < f -> read f (h ++ ext ++ more) (fst (alloc t h)) = t).
Definition made_list (l : list (string * tree)) (h : heap) : Prop :=
  exists ext, snd (alloc_list l h) = h ++ ext /\ length ext = nodes_list l /\ obj_in (length h) (length h + length ext) (fst (alloc_list l h)) /\
    (forall o, In o ext -> obj_in (length h) (length h + length ext) o) /\
    (forall f more, nodes_list l < f -> map (fun p => (fst p, read f (h ++ ext ++ more) (snd p))) (fst (alloc_list l h)) = l).

Lemma cell_in_mono n m n' m' c : cell_in n m c -> n' <= n -> m <= m' -> cell_in n' m' c.
Proof. destruct c; cbn; [auto|]. lia. Qed.
Lemma obj_in_mono n m n' m' o : obj_in n m o -> n' <= n -> m <= m' -> obj_in n' m' o.
Proof. intros h a b k c i. exact (cell_in_mono _ _ _ _ _ (h k c i) a b). Qed.

Lemma made_list_of l : (forall k x, In (k, x) l -> forall h, made x h) -> forall h, made_list l h.
Proof.
  induction l as [|[k x] r IH]; intros hx h.
  - exists []. cbn. rewrite app_nil_r. repeat split; [intros ? ? []|intros o []].
  - destruct (hx k x (or_introl eq_refl) h) as (e1 & a1 & b1 & c1 & d1 & r1).
    destruct (IH (fun k' x' i => hx k' x' (or_intror i)) (h ++ e1)) as (e2 & a2 & b2 & c2 & d2 & r2).
    exists (e1 ++ e2). cbn [alloc_list snd fst nodes_list]. rewrite a1, a2, !app_length in *. split; [rewrite app_assoc; reflexivity|]. split; [lia|].
    split; [|split].
    + intros k' c [e|i]; [injection e as _ <-; apply (cell_in_mono _ _ _ _ _ c1); lia|]. apply (cell_in_mono _ _ _ _ _ (c2 k' c i)); lia.
    + intros o i. apply in_app_or in i. destruct i as [i|i]; [apply (obj_in_mono _ _ _ _ _ (d1 o i)); lia|apply (obj_in_mono _ _ _ _ _ (d2 o i)); lia].
    + intros f more hf. cbn [map fst snd]. f_equal.
      * f_equal. rewrite <- app_assoc. apply r1. lia.
      * specialize (r2 f more). rewrite <- !app_assoc in *. apply r2. lia.
Qed.

Lemma all_made : forall t h, made t h.
Proof.
  fix IH 1. intros [v|l] h.
  - exists []. cbn. rewrite app_nil_r. repeat split; [intros o []|]. intros [|f] more hf; [lia|reflexivity].
  - assert (forall k x, In (k, x) l -> forall h, made x h) as hl.
    { clear h. induction l as [|[k0 x0] r IHl]; intros k x i; [destruct i|]. destruct i as [e|i]; [injection e as <- <-; apply IH|exact (IHl k x i)]. }
    destruct (made_list_of l hl h) as (ext & a & b & c & d & r). exists (ext ++ [fst (alloc_list l h)]). rewrite alloc_Node. cbn [fst snd]. rewrite a, nodes_Node, !app_length. cbn [length].
    split; [rewrite app_assoc; reflexivity|]. split; [lia|]. split; [cbn; lia|]. split.
    + intros o i. apply in_app_or in i. destruct i as [i|[<-|[]]]; [apply (obj_in_mono _ _ _ _ _ (d o i)); lia|apply (obj_in_mono _ _ _ _ _ c); lia].
    + intros [|f] more hf; [lia|]. cbn [read].
      assert (nth_error (h ++ (ext ++ [fst (alloc_list l h)]) ++ more) (length h + length ext) = Some (fst (alloc_list l h))) as en.
      { rewrite <- app_assoc, app_assoc, <- app_length. rewrite nth_error_app2 by lia. rewrite Nat.sub_diag. reflexivity. }
      rewrite en. f_equal. rewrite <- app_assoc. apply r. lia.
Qed.
Lemma all_made_list l h : made_list l h.
Proof. apply made_list_of. intros k x _ h'. apply all_made. Qed.

(** ** the default configuration is out of reach *)
Lemma nth_error_firstn {A} (l l' : list A) n i : firstn n l = firstn n l' -> i < n -> nth_error l i = nth_error l' i.
Proof.
  revert l l' i. induction n as [|n IH]; intros l l' i h lt; [lia|]. destruct l, l'; cbn in h; try congruence.
  injection h as -> h. destruct i; [reflexivity|]. cbn. apply IH; [exact h|lia].
Qed.
Lemma read_below n h h' : firstn n h = firstn n h' -> (forall i o, i < n -> nth_error h i = Some o -> obj_in 0 n o) ->
  forall f c, cell_in 0 n c -> read f h' c = read f h c.
Proof.
  intros e cl. induction f as [|f IH]; intros c hc; [reflexivity|]. destruct c as [v|r]; [reflexivity|]. cbn in hc. cbn [read].
  rewrite <- (nth_error_firstn h h' n r e) by lia. destruct (nth_error h r) as [o|] eqn:eo; [|reflexivity]. f_equal. apply map_ext_in. intros [k c] i. cbn.
  f_equal. apply IH. exact (cl r o (proj2 hc) eo k c i).
Qed.

Section Config.
  Variable dict_config : tree -> option exn.
  Variable d : list (string * tree).               (* the default configuration *)
  Notation t0 := (Node d).
  Notation h0 := (snd (alloc (Node d) [])).
  Notation settings := (fst (start (Node d))).
  Notation run := (run dict_config (Node d)).
  Notation n0 := (length h0).

  Record linv (s : lst) : Prop := {
    li_low : firstn n0 (l_heap s) = h0;
    li_up : forall i o, n0 <= i -> nth_error (l_heap s) i = Some o -> obj_in n0 (length (l_heap s)) o;
    li_made : forall c, In c (l_made s) -> cell_in n0 (length (l_heap s)) c
  }.

  Lemma h0_facts : n0 = nodes t0 /\ cell_in 0 n0 settings /\ (forall i o, i < n0 -> nth_error h0 i = Some o -> obj_in 0 n0 o) /\
    forall f more, nodes t0 < f -> read f (h0 ++ more) settings = t0.
  Proof.
    destruct (all_made t0 []) as (ext & a & b & c & e & r). cbn [app length] in *. unfold start. cbn [fst]. rewrite a in *. cbn [Nat.add] in *.
    split; [exact b|]. split; [exact c|]. split; [|exact r]. intros i o _ h. apply e. exact (nth_error_In _ _ h).
  Qed.
  Lemma low_app (h more : heap) : firstn n0 h = h0 -> firstn n0 (h ++ more) = h0.
  Proof.
    intros e. assert (n0 <= length h). { rewrite <- e at 1. rewrite firstn_length. lia. }
    rewrite firstn_app. replace (n0 - length h) with 0 by lia. cbn [firstn]. rewrite app_nil_r. exact e.
  Qed.
  Lemma settings_looks s : linv s -> looks (l_heap s) settings = t0.
  Proof.
    intros i. destruct h0_facts as (n & c & cl & r). pose proof (li_low s i) as e. unfold looks.
    assert (n0 <= length (l_heap s)) as le. { rewrite <- e at 1. rewrite firstn_length. lia. }
    rewrite (read_below n0 h0 (l_heap s)); [|rewrite firstn_all, e; reflexivity|exact cl|exact c].
    specialize (r (S (length (l_heap s))) []). rewrite app_nil_r in r. apply r. lia.
  Qed.

  Lemma follow_in s path : linv s -> forall c c', cell_in n0 (length (l_heap s)) c -> follow (l_heap s) c path = Some c' -> cell_in n0 (length (l_heap s)) c'.
  Proof.
    intros i. induction path as [|k path IH]; intros c c' hc e; [injection e as <-; exact hc|]. cbn [follow] in e. destruct c as [v|r]; [discriminate|].
    destruct (nth_error (l_heap s) r) as [o|] eqn:eo; [|discriminate]. destruct (dget k o) as [c1|] eqn:ek; [|discriminate].
    apply (IH c1 c'); [|exact e]. apply (li_up s i r o (proj1 hc) eo k). apply dget_In, ek.
  Qed.
  Lemma lput_length {A} (l : list A) : forall i x, length (lput l i x) = length l.
  Proof. induction l as [|y l IH]; intros [|i] x; cbn; try reflexivity. f_equal. apply IH. Qed.
  Lemma lput_firstn {A} (l : list A) : forall n i x, n <= i -> firstn n (lput l i x) = firstn n l.
  Proof. induction l as [|y l IH]; intros [|n] [|i] x h; cbn; try reflexivity; try lia. f_equal. apply IH. lia. Qed.
  Lemma lput_nth {A} (l : list A) : forall i x j y, nth_error (lput l i x) j = Some y -> y = x \/ nth_error l j = Some y.
  Proof. induction l as [|z l IH]; intros [|i] x [|j] y h; cbn in *; auto; try discriminate; [left; congruence|]. exact (IH _ _ _ _ h). Qed.
  Lemma in_dset' {W} k (v : W) (m : list (string * W)) p : In p (dset k v m) -> p = (k, v) \/ In p m.
  Proof.
    induction m as [|[x w] m IH]; cbn [dset]; [intros [<-|[]]; auto|]. destruct (eq_dec k x) as [->|n]; cbn [In]; [intros [<-|i]; auto|].
    intros [<-|i]; [auto|]. destruct (IH i); auto.
  Qed.
  Lemma linv_put s i path k c : linv s -> cell_in n0 (length (l_heap s)) c -> linv (put s i path k c).
  Proof.
    intros inv hc. unfold put. destruct (nth_error (l_made s) i) as [ci|] eqn:ei; [|exact inv]. destruct (follow (l_heap s) ci path) as [[v|n]|] eqn:ef; try exact inv.
    destruct (nth_error (l_heap s) n) as [o|] eqn:eo; [|exact inv].
    pose proof (follow_in s path inv ci (R n) (li_made s inv ci (nth_error_In _ _ ei)) ef) as [lo hi]. split; cbn [l_heap l_made].
    - rewrite lput_firstn by exact lo. apply inv.
    - rewrite lput_length. intros j o' hj e. apply lput_nth in e. destruct e as [->|e]; [|exact (li_up s inv j o' hj e)].
      intros k' c' hi'. apply in_dset' in hi'. destruct hi' as [e|hi']; [injection e as _ ->; exact hc|]. exact (li_up s inv n o lo eo k' c' hi').
    - rewrite lput_length. apply inv.
  Qed.

  Lemma update_in n m e : forall o, obj_in n m o -> obj_in n m e -> obj_in n m (update o e).
  Proof.
    unfold update. induction e as [|[k c] e IH]; intros o ho he; [exact ho|]. cbn [fold_left]. apply IH; [|intros k' c' i; apply (he k' c'); right; exact i].
    intros k' c' i. apply in_dset' in i. destruct i as [e'|i]; [injection e' as _ ->; apply (he k c); left; reflexivity|exact (ho k' c' i)].
  Qed.

  (** what a load makes *)
  Lemma load_facts s l : linv s ->
    exists h c, (load_log_config settings dict_config (Some l) s = match dict_config (looks h c) with
                   | Some e => (Err e, {| l_heap := h; l_made := l_made s |}) | None => (Ok c, {| l_heap := h; l_made := l_made s ++ [c] |}) end) /\
      linv {| l_heap := h; l_made := l_made s ++ [c] |} /\ (exists more, h = l_heap s ++ more) /\
      exists o o1 o2, o = update o1 o2 /\ nth_error h (length h - 1) = Some o /\ c = R (length h - 1) /\ 0 < length h /\
        map (fun p => (fst p, read (length h) h (snd p))) o1 = d /\ map (fun p => (fst p, read (length h) h (snd p))) o2 = l.
  Proof.
    intros i. unfold load_log_config. rewrite (settings_looks s i).
    destruct (all_made_list d (l_heap s)) as (e1 & a1 & b1 & c1 & d1 & r1). set (q := alloc_list d (l_heap s)) in *. clearbody q. destruct q as [o1 hq]. cbn [fst snd] in *. subst hq.
    destruct (all_made_list l (l_heap s ++ e1)) as (e2 & a2 & b2 & c2 & d2 & r2). set (q := alloc_list l (l_heap s ++ e1)) in *. clearbody q. destruct q as [o2 hq]. cbn [fst snd] in *. subst hq.
    set (h := ((l_heap s ++ e1) ++ e2) ++ [update o1 o2]).
    assert (length h = length (l_heap s) + length e1 + length e2 + 1) as lh by (unfold h; rewrite !app_length; cbn; lia).
    assert (n0 <= length (l_heap s)) as le. { pose proof (li_low s i) as e. rewrite <- e at 1. rewrite firstn_length. lia. }
    exists h, (R (length ((l_heap s ++ e1) ++ e2))). split; [reflexivity|]. split; [split; cbn [l_heap l_made]|split].
    - unfold h. rewrite <- !app_assoc. apply low_app, i.
    - intros j o hj e. apply nth_error_In in e as hin. rewrite !app_length in *. cbn [length] in *.
      destruct (lt_dec j (length (l_heap s))) as [lt|ge].
      { unfold h in e. rewrite <- !app_assoc in e. rewrite nth_error_app1 in e by exact lt. apply (obj_in_mono _ _ _ _ _ (li_up s i j o hj e)); lia. }
      unfold h in e. rewrite <- !app_assoc in e. rewrite nth_error_app2 in e by lia. apply nth_error_In in e. apply in_app_or in e. destruct e as [e|e].
      { apply (obj_in_mono _ _ _ _ _ (d1 o e)); lia. }
      apply in_app_or in e. destruct e as [e|[<-|[]]]; [apply (obj_in_mono _ _ _ _ _ (d2 o e)); lia|].
      apply update_in; [apply (obj_in_mono _ _ _ _ _ c1); lia|apply (obj_in_mono _ _ _ _ _ c2); lia].
    - intros c ic. apply in_app_or in ic. destruct ic as [ic|[<-|[]]]; [apply (cell_in_mono _ _ _ _ _ (li_made s i c ic)); lia|]. cbn [cell_in]. rewrite lh, !app_length. lia.
    - exists (e1 ++ e2 ++ [update o1 o2]). unfold h. rewrite <- !app_assoc. reflexivity.
    - exists (update o1 o2), o1, o2. split; [reflexivity|]. assert (length h - 1 = length ((l_heap s ++ e1) ++ e2)) as -> by (rewrite !app_length; lia).
      split; [unfold h; rewrite nth_error_app2 by lia; rewrite Nat.sub_diag; reflexivity|]. split; [reflexivity|]. split; [lia|]. split.
      + specialize (r1 (length h) (e2 ++ [update o1 o2])). unfold h at 2. rewrite <- !app_assoc. apply r1. lia.
      + specialize (r2 (length h) [update o1 o2]). unfold h at 2. rewrite <- !app_assoc in *. apply r2. lia.
  Qed.

  Lemma linv_step s o : linv s -> linv (step settings dict_config s o).
  Proof.
    intros i. destruct o as [[l|]|j path k v|j path k j' path']; cbn [step].
    - destruct (load_facts s l i) as (h & c & -> & [l1 l2 l3] & _). cbn [l_heap l_made] in *. destruct (dict_config (looks h c)); cbn [snd]; split; cbn [l_heap l_made]; auto.
      intros x ix. apply l3. apply in_or_app. left. exact ix.
    - unfold load_log_config. rewrite (settings_looks s i). exact i.
    - apply linv_put; [exact i|exact I].
    - destruct (nth_error (l_made s) j') as [cj|] eqn:ej; [|exact i]. destruct (follow (l_heap s) cj path') as [c|] eqn:ef; [|exact i].
      apply linv_put; [exact i|]. exact (follow_in s path' i cj c (li_made s i cj (nth_error_In _ _ ej)) ef).
  Qed.
  Lemma run_linv ops : linv (run ops).
  Proof.
    assert (forall s, linv s -> linv (fold_left (step settings dict_config) ops s)) as h.
    { induction ops as [|o ops IH]; intros s i; [exact i|]. apply IH, linv_step, i. }
    apply h. split; cbn; [apply firstn_all| |intros c []]. intros i o hi e. apply nth_error_None in hi. cbn in e. congruence.
  Qed.

  (** ** the theorems *)

  (** Whatever files are loaded and however the configurations got are changed, the default configuration stays as it was. *)
  Theorem log_defaults_kept ops : looks (l_heap (run ops)) settings = Node d.
  Proof. apply settings_looks, run_linv. Qed.

  (** A change made to a dictionary of a configuration got is there. *)
  Theorem log_change_made ops i path k v c n : nth_error (l_made (run ops)) i = Some c -> follow (l_heap (run ops)) c path = Some (R n) ->
    follow (l_heap (run (ops ++ [Put i path k v]))) (R n) [k] = Some (V v).
  Proof.
    intros hi hf. unfold Lc_Model.run. rewrite fold_left_app. cbn [fold_left step]. fold (run ops). unfold put. rewrite hi, hf.
    pose proof (run_linv ops) as inv. pose proof (follow_in _ path inv c (R n) (li_made _ inv c (nth_error_In _ _ hi)) hf) as [_ lt].
    destruct (nth_error (l_heap (run ops)) n) as [o|] eqn:eo; [|apply nth_error_None in eo; lia]. cbn [l_heap follow].
    assert (forall (l : heap) j x, j < length l -> nth_error (lput l j x) j = Some x) as hput.
    { clear. induction l as [|y l IH]; intros [|j] x h; cbn in *; try lia; [reflexivity|]. apply IH. lia. }
    rewrite hput by exact lt. rewrite dget_dset. destruct (eq_dec k k); [reflexivity|congruence].
  Qed.

  Lemma dget_map (g : cell -> tree) (o : obj) k : dget k (map (fun p => (fst p, g (snd p))) o) = option_map g (dget k o).
  Proof. induction o as [|[x c] o IH]; [reflexivity|]. cbn. destruct (eq_dec k x); [reflexivity|exact IH]. Qed.
  Lemma dget_update k e : NoDup (map fst e) -> forall o, dget k (update o e) = match dget k e with Some c => Some c | None => dget k o end.
  Proof.
    unfold update. induction e as [|[x c] e IH]; intros nd o; [reflexivity|]. inversion nd as [|? ? hx nd']; subst. cbn [fold_left fst snd]. rewrite (IH nd'). cbn [dget].
    destruct (eq_dec k x) as [->|ne].
    - assert (dget x e = None) as ->. { apply dget_None. exact hx. } rewrite dget_dset. destruct (eq_dec x x); congruence.
    - destruct (dget k e); [reflexivity|]. rewrite dget_dset. destruct (eq_dec k x); congruence.
  Qed.

  (** The configuration a file gives, after any history: its own sections, and the default ones it does not name. *)
  Theorem log_sections ops l : NoDup (map fst l) ->
    exists c m s, load_log_config settings dict_config (Some l) (run ops) = (match dict_config (Node m) with Some e => Err e | None => Ok c end, s) /\
      looks (l_heap s) c = Node m /\
      forall k, dget k m = match dget k l with Some t => Some t | None => dget k d end.
  Proof.
    intros nd. destruct (load_facts (run ops) l (run_linv ops)) as (h & c & e & _ & _ & o & o1 & o2 & -> & en & -> & pos & r1 & r2).
    set (m := map (fun p => (fst p, read (length h) h (snd p))) (update o1 o2)).
    assert (looks h (R (length h - 1)) = Node m) as lk. { unfold looks. cbn [read]. rewrite en. reflexivity. }
    exists (R (length h - 1)), m. rewrite e, lk. destruct (dict_config (Node m)) as [x|]; eexists; (split; [reflexivity|]); (split; [exact lk|]).
    all: intros k; unfold m; rewrite dget_map, dget_update by (rewrite <- r2 in nd; rewrite map_map in nd; exact nd); rewrite <- r1, <- r2, !dget_map; destruct (dget k o2); reflexivity.
  Qed.

  (** So a section is not completed: what the defaults have in a section the file names, and the file does not repeat, is lost. *)
  Theorem log_section_merged_refuted ops l k f g x t : NoDup (map fst l) -> dget k l = Some (Node f) -> dget k d = Some (Node g) ->
    dget x g = Some t -> dget x f = None ->
    exists c m s, load_log_config settings dict_config (Some l) (run ops) = (match dict_config (Node m) with Some e => Err e | None => Ok c end, s) /\
      exists sec, dget k m = Some (Node sec) /\ dget x sec = None.
  Proof.
    intros nd hl _ _ hx. destruct (log_sections ops l nd) as (c & m & s & e & _ & hm). exists c, m, s. split; [exact e|]. exists f. rewrite hm, hl. auto.
  Qed.

  (** An empty file raises TypeError, and the program has what it had. *)
  Theorem empty_log_file_refuted ops : load_log_config settings dict_config None (run ops) = (Err TypeError, run ops).
  Proof. unfold load_log_config. rewrite log_defaults_kept. reflexivity. Qed.
End Config.

(** ** a program: two sections by default, a file naming one of them *)
Definition ex_defaults : list (string * tree) :=
  [("version", Leaf (VInt 1)); ("handlers", Node [("console", Leaf (VStr "out")); ("file", Leaf (VStr "log.txt"))])].
Definition ex_file : list (string * tree) := [("handlers", Node [("console", Leaf (VStr "err"))])].
Definition ex_dc (t : tree) : option exn := None.
Example ex_loaded : exists c s, load_log_config (fst (start (Node ex_defaults))) ex_dc (Some ex_file) (run ex_dc (Node ex_defaults) []) = (Ok c, s) /\
  looks (l_heap s) c = Node [("version", Leaf (VInt 1)); ("handlers", Node [("console", Leaf (VStr "err"))])].
Proof. do 2 eexists. split; reflexivity. Qed.
Example ex_changed :
  let s := run ex_dc (Node ex_defaults) [Load (Some []); Put 0 ["handlers"] "file" (VStr "mine")] in
  nth_error (l_made s) 0 <> None /\
  match nth_error (l_made s) 0 with Some c => looks (l_heap s) c = Node [("version", Leaf (VInt 1)); ("handlers", Node [("console", Leaf (VStr "out")); ("file", Leaf (VStr "mine"))])] | None => False end /\
  looks (l_heap s) (fst (start (Node ex_defaults))) = Node ex_defaults.
Proof. cbv zeta. split; [discriminate|]. split; reflexivity. Qed.
Example ex_lost_hyp : NoDup (map fst ex_file) /\ dget "handlers" ex_file = Some (Node [("console", Leaf (VStr "err"))]) /\
  dget "file" [("console", Leaf (VStr "err"))] = None.
Proof. repeat split. constructor; [intros []|constructor]. Qed.
Print Assumptions log_defaults_kept.
Print Assumptions log_change_made.
Print Assumptions log_sections.
Print Assumptions log_section_merged_refuted.
Print Assumptions empty_log_file_refuted.
