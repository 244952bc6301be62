(** Properties of the sessions of containers (C62). *)
From Verif Require Import Cx_Model.

Lemma upd_length {A} (l : list A) i x : length (upd l i x) = length l.
Proof. revert i. induction l as [|y l IH]; intros [|i]; cbn; congruence. Qed.
Lemma nth_upd {A} (l : list A) i j x d : nth j (upd l i x) d = if Nat.eqb j i then (if Nat.ltb i (length l) then x else d) else nth j l d.
Proof.
  revert i j. induction l as [|y l IH]; intros i j.
  - cbn [upd length]. destruct (Nat.eqb j i), j; reflexivity.
  - destruct i as [|i], j as [|j]; cbn [upd nth Nat.eqb length]; try reflexivity. rewrite IH. reflexivity.
Qed.
Lemma nth_error_upd {A} (l : list A) i j x : nth_error (upd l i x) j = if Nat.eqb j i then (if Nat.ltb i (length l) then Some x else None) else nth_error l j.
Proof.
  revert i j. induction l as [|y l IH]; intros i j.
  - cbn [upd length]. destruct (Nat.eqb j i), j; reflexivity.
  - destruct i as [|i], j as [|j]; cbn [upd nth_error Nat.eqb length]; try reflexivity. rewrite IH. reflexivity.
Qed.

(** containers made so far have a context *)
Definition Good (w : world) : Prop := w_ctx w <> [] /\ Forall (fun c => c < length (w_ctx w)) (w_obj w).
(** contexts named by an operation exist *)
Definition Known (w : world) (c : option nat) : Prop := match c with Some n => n < length (w_ctx w) | None => True end.
Lemma known_lt w c : Good w -> Known w c -> parent_ctx c < length (w_ctx w).
Proof. intros [h _] k. destruct c; cbn in *; [exact k|]. destruct (w_ctx w); [congruence|cbn; apply Nat.lt_0_succ]. Qed.

Section P.
  Variable live : nat -> bool.
  (** [s] is the session in force when [given] is given inside something whose session is [outer] *)
  Inductive InForce (outer : option nat) : option nat -> option nat -> Prop :=
  | given_live s : live s = true -> InForce outer (Some s) (Some s)
  | given_none : InForce outer None outer
  | given_dead s : live s = false -> InForce outer (Some s) outer.
  Lemma or_session_spec g o r : or_session live g o = r <-> InForce o g r.
  Proof.
    unfold or_session. split.
    - destruct g as [n|]; [destruct (live n) eqn:e|]; intros <-; constructor; exact e.
    - destruct 1 as [s e| |s e]; try rewrite e; reflexivity.
  Qed.

  (** a new object has the session given to it, or else the session of the context it is made in; nothing else changes *)
  Theorem object_session : forall w c s, Good w -> Known w c ->
    let w' := new_object live c s w in
    let o := length (w_obj w) in
    InForce (ctx_session w (parent_ctx c)) s (session w' o) /\
    (forall o', o' < o -> session w' o' = session w o') /\
    (forall c', c' < length (w_ctx w) -> ctx_session w' c' = ctx_session w c').
  Proof.
    intros w c s g k w' o. 
    assert (hc : forall c', c' < length (w_ctx w) -> ctx_session w' c' = ctx_session w c').
    { intros c' h. unfold w', ctx_session, new_object, put_session. cbn [w_ctx]. rewrite nth_upd.
      destruct (Nat.eqb_spec c' (length (w_ctx w))) as [->|_]; [exfalso; exact (Nat.lt_irrefl _ h)|]. apply app_nth1. exact h. }
    split; [|split; [|exact hc]].
    - unfold session, w', new_object, o. cbn [w_obj w_ctx]. rewrite nth_error_app2, Nat.sub_diag by apply Nat.le_refl. cbn [nth_error].
      unfold ctx_session at 2. cbn [w_ctx]. unfold put_session. rewrite nth_upd, Nat.eqb_refl, app_length. cbn [length].
      rewrite (proj2 (Nat.ltb_lt _ _)) by (rewrite Nat.add_1_r; apply Nat.lt_succ_diag_r).
      rewrite app_nth2, Nat.sub_diag by apply Nat.le_refl. cbn [nth]. apply or_session_spec. reflexivity.
    - intros o' h. unfold session at 1. unfold w' at 1. cbn [new_object w_obj]. rewrite nth_error_app1 by exact h.
      unfold session. destruct (nth_error (w_obj w) o') as [c'|] eqn:e; [|reflexivity]. apply hc.
      destruct g as [_ g]. rewrite Forall_forall in g. apply g. eapply nth_error_In. exact e.
  Qed.
  (** a new array too, but the session given to it is set for everything that shares its context *)
  Theorem array_session_shared_refuted : forall w c s, Good w -> Known w c ->
    let w' := new_array live c s w in
    let o := length (w_obj w) in
    InForce (ctx_session w (parent_ctx c)) s (session w' o) /\
    (forall o' c', nth_error (w_obj w) o' = Some c' -> 
       session w' o' = if Nat.eqb c' (parent_ctx c) then session w' o else session w o').
  Proof.
    intros w c s g k w' o. assert (lt := known_lt w c g k).
    assert (ho : session w' o = or_session live s (ctx_session w (parent_ctx c))).
    { unfold session, w', new_array, o. cbn [w_obj w_ctx]. rewrite nth_error_app2, Nat.sub_diag by apply Nat.le_refl. cbn [nth_error].
      unfold ctx_session. cbn [w_ctx]. unfold put_session. rewrite nth_upd, Nat.eqb_refl, (proj2 (Nat.ltb_lt _ _) lt). reflexivity. }
    split; [apply or_session_spec; symmetry; exact ho|].
    intros o' c' h. rewrite ho. unfold session. unfold w' at 1. cbn [new_array w_obj]. rewrite nth_error_app1, h by (apply nth_error_Some; congruence).
    unfold w', ctx_session at 1. cbn [new_array w_ctx]. unfold put_session. rewrite nth_upd, (proj2 (Nat.ltb_lt _ _) lt). reflexivity.
  Qed.
  (** operations on contexts and containers that exist *)
  Definition Allowed (w : world) (p : op) : Prop :=
    match p with NewObject c _ | NewArray c _ => Known w c | Adopt a o => a < length (w_obj w) /\ o < length (w_obj w) end.
  Inductive Run : world -> list op -> world -> Prop :=
  | run_nil w : Run w [] w
  | run_cons w p l w' : Allowed w p -> Run (step live w p) l w' -> Run w (p :: l) w'.
  Lemma run_runs w l w' : Run w l w' -> run live w l = w'.
  Proof. induction 1 as [w|w p l w' a r IH]; [reflexivity|exact IH]. Qed.
  Lemma good_step w p : Good w -> Allowed w p -> Good (step live w p).
  Proof.
    intros g a. assert (g0 := g). destruct g as [g1 g2]. destruct p as [c s|c s|x o]; cbn [step Allowed] in *.
    - unfold new_object, put_session. split; cbn [w_ctx w_obj].
      + intros e. apply (f_equal (@length _)) in e. rewrite upd_length, app_length, Nat.add_1_r in e. discriminate.
      + rewrite upd_length, app_length. cbn [length]. rewrite Nat.add_1_r. apply Forall_app. split.
        * revert g2. apply Forall_impl. intros y h. apply Nat.lt_lt_succ_r. exact h.
        * constructor; [apply Nat.lt_succ_diag_r|constructor].
    - unfold new_array, put_session. split; cbn [w_ctx w_obj].
      + intros e. apply (f_equal (@length _)) in e. rewrite upd_length in e. destruct (w_ctx w); [congruence|discriminate].
      + rewrite upd_length. apply Forall_app. split; [exact g2|]. constructor; [apply known_lt; assumption|constructor].
    - unfold adopt. destruct (nth_error (w_obj w) x) as [c|] eqn:e; [|exact g0]. split; cbn [w_ctx w_obj]; [exact g1|].
      assert (hc : c < length (w_ctx w)) by (rewrite Forall_forall in g2; apply g2; eapply nth_error_In; exact e). clear e a g0.
      revert o. induction (w_obj w) as [|y l IH]; intros [|o]; cbn [upd]; inversion g2; subst; constructor; auto.
  Qed.
  (** ... in particular an array made on its own sets the session of every object made on its own later *)
  Theorem array_default_session_refuted : forall w s, Good w -> live s = true ->
    let w' := new_object live None None (new_array live None (Some s) w) in session w' (S (length (w_obj w))) = Some s.
  Proof.
    intros w s g l. set (w1 := new_array live None (Some s) w).
    assert (g1 : Good w1) by (apply (good_step w (NewArray None (Some s)) g I)).
    destruct (object_session w1 None None g1 I) as [h _].
    assert (e1 : length (w_obj w1) = S (length (w_obj w))) by (unfold w1, new_array; cbn [w_obj]; rewrite app_length; apply Nat.add_1_r).
    rewrite e1 in h. inversion h as [| h'|]. clear h. transitivity (ctx_session w1 0); [symmetry; assumption|].
    unfold w1, ctx_session, new_array, put_session. cbn [w_ctx parent_ctx]. destruct g as [g _]. destruct (w_ctx w) as [|x cs]; [destruct (g eq_refl)|].
    cbn [upd nth or_session]. rewrite l. reflexivity.
  Qed.
  (** the default context and the contexts in use always exist *)
  Theorem sessions_good : forall l w, Run start l w -> Good w.
  Proof.
    assert (h : forall w l w', Run w l w' -> Good w -> Good w').
    { induction 1 as [w|w p l w' a r IH]; intros g; [exact g|]. apply IH. apply good_step; assumption. }
    intros l w r. eapply h; [exact r|]. split; [discriminate|constructor].
  Qed.
  (** as long as no array is given a session and none adopts the object, its session never changes *)
  Definition Harmless (o : nat) (p : op) : Prop := match p with NewObject _ _ => True | NewArray _ s => s = None | Adopt _ o' => o' <> o end.
  Theorem session_kept : forall w l w' o, Good w -> Run w l w' -> Forall (Harmless o) l -> o < length (w_obj w) -> session w' o = session w o.
  Proof.
    intros w l w' o g r. revert g. induction r as [w|w p l w' a r IH]; intros g h lt; [reflexivity|]. inversion h; subst.
    assert (lt' : o < length (w_obj (step live w p))).
    { destruct p as [c s|c s|x o']; cbn [step new_object new_array w_obj]; try (rewrite app_length; apply Nat.lt_lt_add_r; exact lt).
      unfold adopt. destruct (nth_error (w_obj w) x); [cbn [w_obj]; rewrite upd_length|]; exact lt. }
    rewrite (IH (good_step w p g a) H2 lt'). clear IH r lt' h H2. destruct p as [c s|c s|x o']; cbn [step Harmless Allowed] in *.
    - apply object_session; assumption.
    - subst s. destruct (nth_error (w_obj w) o) as [c'|] eqn:e; [|apply nth_error_None in e; exfalso; exact (Nat.lt_irrefl _ (Nat.lt_le_trans _ _ _ lt e))].
      destruct (array_session_shared_refuted w c None g a) as [h1 h2]. rewrite (h2 o c' e).
      destruct (Nat.eqb_spec c' (parent_ctx c)) as [->|_]; [|reflexivity]. apply or_session_spec in h1. cbn [or_session] in h1. rewrite <- h1. unfold session. rewrite e. reflexivity.
    - unfold adopt. destruct (nth_error (w_obj w) x) as [c|]; [|reflexivity]. unfold session. cbn [w_obj]. rewrite nth_error_upd.
      destruct (Nat.eqb_spec o o') as [->|_]; [congruence|]. reflexivity.
  Qed.
  (** in objects nested to any depth, each one's session is the nearest one given *)
  Inductive Nearest (base : option nat) : list (option nat) -> option nat -> Prop :=
  | near_base : Nearest base [] base
  | near_last l s o r : Nearest base l o -> InForce o s r -> Nearest base (l ++ [s]) r.
  Lemma nest_app c l1 s w : nest live c (l1 ++ [s]) w =
    new_object live (match l1 with [] => c | _ => Some (length (w_ctx w) + length l1 - 1) end) s (nest live c l1 w).
  Proof.
    revert c w. induction l1 as [|x l1 IH]; intros c w; [reflexivity|]. cbn [app nest]. rewrite IH.
    f_equal. unfold new_object, put_session. cbn [w_ctx]. rewrite upd_length, app_length. destruct l1 as [|y l1].
    - cbn [length]. rewrite !Nat.add_1_r. cbn [Nat.sub]. rewrite Nat.sub_0_r. reflexivity.
    - cbn [length]. f_equal. rewrite !Nat.add_succ_r, Nat.add_0_r. reflexivity.
  Qed.
  Lemma nest_shape c l w : Good w -> Known w c -> Good (nest live c l w) /\ length (w_ctx (nest live c l w)) = length (w_ctx w) + length l /\
    length (w_obj (nest live c l w)) = length (w_obj w) + length l /\
    forall o, o < length l -> nth_error (w_obj (nest live c l w)) (length (w_obj w) + o) = Some (length (w_ctx w) + o).
  Proof.
    revert c w. induction l as [|s l IH]; intros c w g k.
    - cbn [nest length]. rewrite !Nat.add_0_r. repeat split; try apply g. intros o h. destruct (Nat.nlt_0_r _ h).
    - cbn [nest]. set (w1 := new_object live c s w). assert (g1 : Good w1) by (apply (good_step w (NewObject c s) g k)).
      assert (e1 : length (w_ctx w1) = S (length (w_ctx w))) by (unfold w1, new_object, put_session; cbn [w_ctx]; rewrite upd_length, app_length; apply Nat.add_1_r).
      assert (e2 : length (w_obj w1) = S (length (w_obj w))) by (unfold w1, new_object; cbn [w_obj]; rewrite app_length; apply Nat.add_1_r).
      assert (k1 : Known w1 (Some (length (w_ctx w)))) by (unfold Known; rewrite e1; apply Nat.lt_succ_diag_r).
      destruct (IH (Some (length (w_ctx w))) w1 g1 k1) as (h1 & h2 & h3 & h4). split; [exact h1|]. rewrite h2, h3, e1, e2. cbn [length]. rewrite !Nat.add_succ_r.
      split; [reflexivity|]. split; [reflexivity|]. intros [|o] lt.
      + rewrite !Nat.add_0_r. clear - g1 h4 e2 h3 h2 e1. 
        assert (keep : forall l c' w', nth_error (w_obj w') (length (w_obj w)) = Some (length (w_ctx w)) -> nth_error (w_obj (nest live c' l w')) (length (w_obj w)) = Some (length (w_ctx w))).
        { induction l0 as [|s' l0 IH']; intros c' w' e; [exact e|]. cbn [nest]. apply IH'. unfold new_object. cbn [w_obj]. rewrite nth_error_app1; [exact e|]. apply nth_error_Some. congruence. }
        apply keep. unfold w1, new_object. cbn [w_obj]. rewrite nth_error_app2, Nat.sub_diag by apply Nat.le_refl. reflexivity.
      + specialize (h4 o). rewrite e1, e2 in h4. rewrite !Nat.add_succ_r. apply h4. apply Nat.succ_lt_mono. exact lt.
  Qed.
  Theorem nested_session : forall w c l i l', Good w -> Known w c -> i < length l -> l' = firstn (S i) l ->
    Nearest (ctx_session w (parent_ctx c)) l' (session (nest live c l w) (length (w_obj w) + i)).
  Proof.
    intros w c l i l' g k. revert i l'. induction l as [|s l IH] using rev_ind; intros i l' lt ->; [destruct (Nat.nlt_0_r _ lt)|].
    destruct (nest_shape c l w g k) as (g1 & e1 & e2 & h4).
    rewrite nest_app. set (c1 := match l with [] => c | _ => _ end).
    assert (k1 : Known (nest live c l w) c1).
    { unfold c1. destruct l as [|x l1]; [exact k|]. cbn [Known]. rewrite e1. destruct (length (w_ctx w) + length (x :: l1)) eqn:e; [cbn [length] in e; rewrite Nat.add_succ_r in e; discriminate|].
      cbn [Nat.sub]. rewrite Nat.sub_0_r. apply Nat.lt_succ_diag_r. }
    destruct (object_session (nest live c l w) c1 s g1 k1) as (h1 & h2 & _).
    rewrite app_length, Nat.add_1_r in lt. destruct (Nat.eq_dec i (length l)) as [->|ne].
    - rewrite firstn_all2 by (rewrite app_length, Nat.add_1_r; apply Nat.le_refl). rewrite e2 in h1. eapply near_last; [|exact h1].
      destruct l as [|x l1] eqn:el; [constructor|]. rewrite <- el in *.
      assert (ix : length l1 < length l) by (rewrite el; apply Nat.lt_succ_diag_r).
      assert (q := IH (length l1) l ix). replace (firstn (S (length l1)) l) with l in q by (rewrite el; change (S (length l1)) with (length (x :: l1)); symmetry; apply firstn_all).
      specialize (q eq_refl). unfold session in q. rewrite (h4 (length l1) ix) in q. cbn [parent_ctx]. 
      replace (parent_ctx c1) with (length (w_ctx w) + length l1); [exact q|]. unfold c1; rewrite ?el; cbn [parent_ctx length]. rewrite Nat.add_succ_r. cbn [Nat.sub]. rewrite Nat.sub_0_r. reflexivity.
    - assert (i < length l) as lt' by (apply Nat.le_neq; split; [apply Nat.lt_succ_r; exact lt|exact ne]).
      rewrite firstn_app. replace (S i - length l) with 0 by (symmetry; apply Nat.sub_0_le; exact lt'). cbn [firstn]. rewrite app_nil_r.
      rewrite h2 by (rewrite e2; apply Nat.add_lt_mono_l; exact lt'). apply IH; [exact lt'|reflexivity].
  Qed.
  (** an entity given by its key is looked up in the session of the context it is given, and cannot be without one *)
  Theorem entity_lookup : forall w c s, lookup_session live c w = Ok s <-> exists n, c = Some n /\ ctx_session w n = Some s /\ live s = true.
  Proof.
    intros w c s. unfold lookup_session. split.
    - destruct c as [n|]; [|discriminate]. destruct (ctx_session w n) as [x|] eqn:e; [|discriminate]. destruct (live x) eqn:l; [|discriminate]. intros h. injection h as ->. eauto.
    - intros (n & -> & -> & ->). reflexivity.
  Qed.
  (** even the session the class was given by default is not used: the attribute does not exist *)
  Theorem entity_without_session_refuted : forall w c, (forall n s, c = Some n -> ctx_session w n = Some s -> live s = false) -> lookup_session live c w = Err AttributeError.
  Proof.
    intros w c h. unfold lookup_session. destruct c as [n|]; [|reflexivity]. destruct (ctx_session w n) as [s|] eqn:e; [|reflexivity]. rewrite (h n s eq_refl e). reflexivity.
  Qed.
End P.
Print Assumptions object_session. Print Assumptions array_session_shared_refuted. Print Assumptions array_default_session_refuted.
Print Assumptions sessions_good. Print Assumptions session_kept. Print Assumptions nested_session. Print Assumptions entity_lookup. Print Assumptions entity_without_session_refuted.

(** three nested objects, the second given session 7, the third a false session 0: [None; Some 7; Some 7] *)
Example nested_case : let live n := Nat.ltb 0 n in let w := nest live None [None; Some 7; Some 0] start in
  map (session w) [0; 1; 2] = [None; Some 7; Some 7] /\ Good start /\ Known start None.
Proof. repeat split; [discriminate|constructor]. Qed.
Example kept_case : let live n := Nat.ltb 0 n in
  exists w, Run live start [NewObject None (Some 3); NewArray (Some 1) None; NewObject (Some 1) (Some 4); Adopt 1 2] w /\ map (session w) [0; 1; 2] = [Some 3; Some 3; Some 3] /\
  Forall (Harmless 0) [NewArray (Some 1) None; NewObject (Some 1) (Some 4); Adopt 1 2].
Proof. eexists. split; [|split]. - repeat (econstructor; [cbn; auto|]). constructor. - reflexivity. - repeat (constructor; try discriminate). Qed.
