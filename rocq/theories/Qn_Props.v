(** C96: the qualified name found in the source is where the object is defined. *)
From Verif Require Import Base Qn_Model Qn_Spec.
Local Open Scope string_scope. Local Open Scope list_scope.

Section Ind.
  Variable P : node -> Prop.
  Hypothesis HF : forall n l b, (forall x, In x b -> P x) -> P (Fun n l b).
  Hypothesis HC : forall n l b, (forall x, In x b -> P x) -> P (Cls n l b).
  Hypothesis HO : forall b, (forall x, In x b -> P x) -> P (Oth b).
  Fixpoint node_ind' (n : node) : P n :=
    let fix go (l : list node) : forall x, In x l -> P x :=
      match l with
      | [] => fun x h => match h with end
      | y :: l' => fun x h => match h with or_introl e => match e with eq_refl => node_ind' y end | or_intror h' => go l' x h' end
      end in
    match n with Fun a l b => HF a l b (go b) | Cls a l b => HC a l b (go b) | Oth b => HO b (go b) end.
End Ind.

Lemma visit_fun n l b v : visit (Fun n l b) v = pop (pop (visit_all b (push "<locals>" (store l (push n v))))).
Proof. reflexivity. Qed.
Lemma visit_cls n l b v : visit (Cls n l b) v = pop (visit_all b (store l (push n v))).
Proof. reflexivity. Qed.
Lemma visit_oth b v : visit (Oth b) v = visit_all b v.
Proof. reflexivity. Qed.

(** the names that are stored, one after the other *)
Fixpoint stored (pre : list string) (n : node) : list (nat * string) :=
  let fix go (pre : list string) (ns : list node) := match ns with [] => [] | n :: ns' => stored pre n ++ go pre ns' end in
  match n with
  | Fun a l b => (l, String.concat "." (pre ++ [a])) :: go (pre ++ [a; "<locals>"]) b
  | Cls a l b => (l, String.concat "." (pre ++ [a])) :: go (pre ++ [a]) b
  | Oth b => go pre b
  end.
Fixpoint stored_all (pre : list string) (ns : list node) : list (nat * string) := match ns with [] => [] | n :: ns' => stored pre n ++ stored_all pre ns' end.
Definition put (q : dict nat string) (l : list (nat * string)) : dict nat string := fold_left (fun q lv => dset (fst lv) (snd lv) q) l q.

Lemma visit_stored n : forall v, visit n v = {| stack := stack v; names := put (names v) (stored (stack v) n) |}.
Proof.
  induction n as [a l b IH | a l b IH | b IH] using node_ind'; intros v.
  all: assert (hb : forall ns, (forall x, In x ns -> In x b) -> forall v, visit_all ns v = {| stack := stack v; names := put (names v) (stored_all (stack v) ns) |})
    by (induction ns as [|n ns IHn]; intros hi w; cbn [visit_all stored_all]; [destruct w; reflexivity|];
        rewrite (IH n (hi n (or_introl eq_refl))), IHn by (intros x hx; apply hi; right; exact hx); cbn [stack names]; unfold put; rewrite fold_left_app; reflexivity).
  - rewrite visit_fun, (hb b (fun x h => h)). unfold pop, push, store. cbn [stack names].
    rewrite <- app_assoc. cbn [app]. change ([a; "<locals>"]) with ([a] ++ ["<locals>"]). rewrite app_assoc, !removelast_last.
    rewrite <- app_assoc. reflexivity.
  - rewrite visit_cls, (hb b (fun x h => h)). unfold pop, push, store. cbn [stack names]. rewrite removelast_last. reflexivity.
  - rewrite visit_oth, (hb b (fun x h => h)). reflexivity.
Qed.
Lemma visit_all_stored ns : forall v, visit_all ns v = {| stack := stack v; names := put (names v) (stored_all (stack v) ns) |}.
Proof.
  induction ns as [|n ns IH]; intros v; cbn [visit_all stored_all]; [destruct v; reflexivity|].
  rewrite visit_stored, IH. cbn [stack names]. unfold put. rewrite fold_left_app. reflexivity.
Qed.
Lemma stored_all_in ns pre l s : In (l, s) (stored_all pre ns) <-> exists n, In n ns /\ In (l, s) (stored pre n).
Proof.
  induction ns as [|n ns IH]; cbn [stored_all]; [split; [intros [] | intros (n & [] & _)]|]. rewrite in_app_iff, IH. split.
  - intros [h | (m & h1 & h2)]; [exists n; split; [left; reflexivity | exact h] | exists m; split; [right; exact h1 | exact h2]].
  - intros (m & [-> | h1] & h2); [left; exact h2 | right; exists m; split; assumption].
Qed.
Lemma defines_node pre ns l p : Defines pre ns l p <-> exists n, In n ns /\ Defines pre [n] l p.
Proof.
  split.
  - intros h. inversion h; subst.
    + eexists. split; [eassumption|]. eapply def_fun. left. reflexivity.
    + eexists. split; [eassumption|]. eapply def_cls. left. reflexivity.
    + eexists. split; [eassumption|]. eapply def_in_fun; [left; reflexivity | assumption].
    + eexists. split; [eassumption|]. eapply def_in_cls; [left; reflexivity | assumption].
    + eexists. split; [eassumption|]. eapply def_in_oth; [left; reflexivity | assumption].
  - intros (n & hn & h). inversion h as [? ? ? ? ? i | ? ? ? ? ? i | ? ? ? ? ? ? ? i | ? ? ? ? ? ? ? i | ? ? ? ? ? i]; subst; (destruct i as [e | []]; subst n).
    + eapply def_fun. exact hn.
    + eapply def_cls. exact hn.
    + eapply def_in_fun; eassumption.
    + eapply def_in_cls; eassumption.
    + eapply def_in_oth; eassumption.
Qed.
Lemma stored_defines n : forall pre l s, In (l, s) (stored pre n) <-> exists p, Defines pre [n] l p /\ s = String.concat "." p.
Proof.
  induction n as [a l0 b IH | a l0 b IH | b IH] using node_ind'; intros pre l s.
  all: assert (hb : forall pre, In (l, s) (stored_all pre b) <-> exists p, Defines pre b l p /\ s = String.concat "." p)
    by (intros pr; rewrite stored_all_in; split;
        [intros (n & hn & h); apply (IH n hn) in h; destruct h as (p & hp & e); exists p; split; [apply defines_node; exists n; split; assumption | exact e]
        | intros (p & hp & e); apply defines_node in hp; destruct hp as (n & hn & hp); exists n; split; [exact hn|]; apply (IH n hn); exists p; split; assumption]).
  - change (stored pre (Fun a l0 b)) with ((l0, String.concat "." (pre ++ [a])) :: stored_all (pre ++ [a; "<locals>"]) b). cbn [In]. rewrite hb. split.
    + intros [e | (p & hp & e)]; [injection e as <- <-; exists (pre ++ [a]); split; [eapply def_fun; left; reflexivity | reflexivity]|].
      exists p. split; [eapply def_in_fun; [left; reflexivity | exact hp] | exact e].
    + intros (p & hp & ->). inversion hp as [? ? ? ? ? i | ? ? ? ? ? i | ? ? ? ? ? ? ? i h | ? ? ? ? ? ? ? i h | ? ? ? ? ? i h]; subst; destruct i as [e | []]; try discriminate; injection e; intros; subst.
      * left. reflexivity.
      * right. exists p. split; [exact h | reflexivity].
  - change (stored pre (Cls a l0 b)) with ((l0, String.concat "." (pre ++ [a])) :: stored_all (pre ++ [a]) b). cbn [In]. rewrite hb. split.
    + intros [e | (p & hp & e)]; [injection e as <- <-; exists (pre ++ [a]); split; [eapply def_cls; left; reflexivity | reflexivity]|].
      exists p. split; [eapply def_in_cls; [left; reflexivity | exact hp] | exact e].
    + intros (p & hp & ->). inversion hp as [? ? ? ? ? i | ? ? ? ? ? i | ? ? ? ? ? ? ? i h | ? ? ? ? ? ? ? i h | ? ? ? ? ? i h]; subst; destruct i as [e | []]; try discriminate; injection e; intros; subst.
      * left. reflexivity.
      * right. exists p. split; [exact h | reflexivity].
  - change (stored pre (Oth b)) with (stored_all pre b). rewrite hb. split; intros (p & hp & e); exists p; (split; [|exact e]).
    + eapply def_in_oth; [left; reflexivity | exact hp].
    + inversion hp as [? ? ? ? ? i | ? ? ? ? ? i | ? ? ? ? ? ? ? i h | ? ? ? ? ? ? ? i h | ? ? ? ? ? i h]; subst; destruct i as [e0 | []]; try discriminate. injection e0 as ->. exact h.
Qed.

(** ** putting names in a table *)
Lemma put_get l : forall q k s, dget k (put q l) = Some s -> In (k, s) l \/ (dget k q = Some s /\ ~ In k (map fst l)).
Proof.
  unfold put. induction l as [|[i v] l IH]; intros q k s h; cbn [fold_left map fst] in *; [right; split; [exact h | intros []]|].
  destruct (IH _ _ _ h) as [i0 | [hg hn]]; [left; right; exact i0|]. cbn [snd] in hg. rewrite dget_dset in hg. destruct (eq_dec k i) as [-> | ne].
  - left. left. congruence.
  - right. split; [exact hg|]. intros [e | e]; [congruence | contradiction].
Qed.
Lemma put_some l : forall q k, In k (map fst l) \/ dget k q <> None -> dget k (put q l) <> None.
Proof.
  unfold put. induction l as [|[i v] l IH]; intros q k h; cbn [fold_left map fst snd] in *; [destruct h as [[] | h]; exact h|].
  apply IH. rewrite dget_dset. destruct (eq_dec k i) as [-> | ne]; [right; discriminate|].
  destruct h as [[e | e] | h]; [congruence | left; exact e | right; exact h].
Qed.

Section Lines.
  Variable lines : list bool.

  (** the lines a name is spread over *)
  Lemma spread_ok d v : nth_error lines (d - 1) = Some false -> forall fuel i q, 1 <= i <= d -> Belongs lines i d -> d - i < fuel ->
    spread lines fuel i v q = Ok (put q (map (fun k => (k, v)) (seq (S i) (d - i)))).
  Proof.
    intros hd. induction fuel as [|f IH]; intros i q hi hb hf; [lia|]. cbn [spread]. destruct (Nat.eq_dec i d) as [-> | ne].
    - rewrite hd, Nat.sub_diag. reflexivity.
    - rewrite (proj2 hb i ltac:(lia)). rewrite IH; [|lia| split; [lia | intros j hj; apply (proj2 hb); lia] | lia].
      replace (d - i) with (S (d - S i)) by lia. reflexivity.
  Qed.
  (** the first line after the decorators *)
  Lemma belongs_line i d k : nth_error lines (d - 1) = Some false -> 1 <= i <= d -> Belongs lines i d -> (Belongs lines i k <-> i <= k <= d).
  Proof.
    intros hd hi [_ hb]. split.
    - intros [hk h]. split; [exact hk|]. destruct (Nat.le_gt_cases k d) as [hle | hgt]; [exact hle|]. specialize (h d ltac:(lia)). congruence.
    - intros hk. split; [lia|]. intros j hj. apply hb. lia.
  Qed.

  Lemma spread_all_ok l : forall q, (forall i v, In (i, v) l -> exists d, 1 <= i <= d /\ Belongs lines i d /\ nth_error lines (d - 1) = Some false) ->
    exists extra, spread_all lines l q = Ok (put q extra) /\
      forall k v, In (k, v) extra <-> exists i, In (i, v) l /\ i < k /\ Belongs lines i k.
  Proof.
    induction l as [|[i v] l IH]; intros q h; cbn [spread_all].
    - exists []. split; [reflexivity|]. intros k w. split; [intros [] | intros (i & [] & _)].
    - destruct (h i v (or_introl eq_refl)) as (d & hd & hb & hf).
      assert (hlen : d <= length lines) by (assert (hn : d - 1 < length lines) by (apply nth_error_Some; congruence); lia).
      rewrite (spread_ok d v hf) by (auto; lia). cbn [rbind].
      destruct (IH (put q (map (fun k => (k, v)) (seq (S i) (d - i)))) (fun i' v' hi => h i' v' (or_intror hi))) as (extra & he & hx).
      exists (map (fun k => (k, v)) (seq (S i) (d - i)) ++ extra). split; [rewrite he; unfold put; rewrite fold_left_app; reflexivity|].
      intros k w. rewrite in_app_iff, in_map_iff, hx. split.
      + intros [(k' & e & hk) | (i' & hi & hlt & hk)].
        * injection e as -> ->. apply in_seq in hk. exists i. split; [left; reflexivity|]. split; [lia|]. apply (belongs_line i d k hf hd hb). lia.
        * exists i'. split; [right; exact hi|]. split; assumption.
      + intros (i' & [e | hi] & hlt & hk).
        * injection e as -> ->. left. exists k. split; [reflexivity|]. apply in_seq. apply (belongs_line i' d k hf hd hb) in hk. lia.
        * right. exists i'. split; [exact hi|]. split; assumption.
  Qed.

  (** The name found for a line is that of the definition the line belongs to: its own first line, a decorator, or the first line after
      the decorators. A line that belongs to no definition has no name. *)
  Theorem names_exact source : Proper lines source -> forall k,
    (forall p, (exists l, Defines [] source l p /\ Belongs lines l k) -> qualname lines source k = Ok (String.concat "." p)) /\
    ((forall l p, Defines [] source l p -> ~ Belongs lines l k) -> qualname lines source k = Err AttributeError).
  Proof.
    intros [h1 h2] k. unfold qualname, table. rewrite visit_all_stored. cbn [names stack].
    set (l := stored_all [] source). set (q := put [] l).
    assert (hl : forall i s, In (i, s) l <-> exists p, Defines [] source i p /\ s = String.concat "." p).
    { intros i s. unfold l. rewrite stored_all_in. split.
      - intros (n & hn & h). apply stored_defines in h. destruct h as (p & hp & e). exists p. split; [apply defines_node; exists n; split; assumption | exact e].
      - intros (p & hp & e). apply defines_node in hp. destruct hp as (n & hn & hp). exists n. split; [exact hn|]. apply stored_defines. exists p. split; assumption. }
    assert (hq : forall i s, In (i, s) q -> In (i, s) l).
    { intros i s hi. assert (hw : dwf q) by (clear; unfold q, put; assert (g : dwf (@nil (nat * string))) by apply dwf_nil; revert g; generalize (@nil (nat * string));
        induction l as [|[a b] l IH]; intros d g; cbn [fold_left fst snd]; [exact g | apply IH, dwf_dset, g]).
      apply (In_dget _ _ _ hw) in hi. apply put_get in hi. destruct hi as [hi | [hi _]]; [exact hi | discriminate]. }
    destruct (spread_all_ok q q) as (extra & he & hx).
    { intros i s hi. apply hq, hl in hi. destruct hi as (p & hp & _). exact (h1 i p hp). }
    rewrite he. cbn [rbind].
    assert (hsound : forall s, dget k (put q extra) = Some s -> exists i p, Defines [] source i p /\ Belongs lines i k /\ s = String.concat "." p).
    { intros s hs. apply put_get in hs. destruct hs as [hs | [hs _]].
      - apply hx in hs. destruct hs as (i & hi & _ & hb). apply hq, hl in hi. destruct hi as (p & hp & e). exists i, p. repeat split; try assumption; apply hb.
      - apply dget_In, hq, hl in hs. destruct hs as (p & hp & e). exists k, p. split; [exact hp|]. split; [split; [lia | intros j hj; lia] | exact e]. }
    split.
    - intros p (i & hp & hb).
      assert (hsome : dget k (put q extra) <> None).
      { apply put_some. assert (hi : In i (map fst l)) by (apply in_map_iff; exists (i, String.concat "." p); split; [reflexivity | apply hl; exists p; split; [exact hp | reflexivity]]).
        assert (hqi : dget i q <> None) by (apply put_some; left; exact hi).
        destruct (Nat.eq_dec i k) as [-> | ne]; [right; exact hqi|]. left.
        destruct (dget i q) as [s|] eqn:es; [|destruct (hqi eq_refl)]. apply in_map_iff. exists (k, s). split; [reflexivity|]. apply hx.
        exists i. split; [apply dget_In; exact es|]. split; [destruct hb; lia | exact hb]. }
      destruct (dget k (put q extra)) as [s|] eqn:es; [|destruct (hsome eq_refl)]. destruct (hsound s eq_refl) as (i' & p' & hp' & hb' & ->).
      rewrite (h2 i p i' p' k hp hp' hb hb'). reflexivity.
    - intros hno. destruct (dget k (put q extra)) as [s|] eqn:es; [|reflexivity]. destruct (hsound s eq_refl) as (i' & p' & hp' & hb' & _).
      destruct (hno i' p' hp' hb').
  Qed.

  (** Not what is expected: when a decorator of a class goes over several lines, the line of the class itself is not found. *)
  Theorem long_decorator_refuted source l p j k : Proper lines source -> Defines [] source l p -> l <= j -> j < k -> nth_error lines (j - 1) = Some false ->
    (forall l' p', Defines [] source l' p' -> l' <> l -> ~ Belongs lines l' k) -> qualname lines source k = Err AttributeError.
  Proof.
    intros hp hd hj hk hf ho. apply (names_exact source hp k). intros l' p' hd' hb. destruct (Nat.eq_dec l' l) as [-> | ne]; [|exact (ho l' p' hd' ne hb)].
    destruct hb as [_ hb]. rewrite (hb j ltac:(lia)) in hf. discriminate.
  Qed.
End Lines.

(** Not what is expected: what is defined in an asynchronous function (a node the visitor has no method for) is named as if it were
    defined where the function is. *)
Theorem async_scope_refuted lines pre b post k p : Proper lines (pre ++ [Oth b] ++ post) -> Defines [] b k p ->
  qualname lines (pre ++ [Oth b] ++ post) k = Ok (String.concat "." p).
Proof.
  intros hp hd. apply (names_exact lines _ hp k). exists k. split; [|split; [lia | intros j hj; lia]].
  eapply def_in_oth; [apply in_app_iff; right; left; reflexivity | exact hd].
Qed.

(** * A concrete source
      1 class A:        2  @deco    3  @deco    4  class B:     5   def f():    6     class C: pass
      7 async def g():  8   def h(): pass       *)
Definition ex_source : list node := [Cls "A" 1 [Cls "B" 2 [Fun "f" 5 [Cls "C" 6 []]]]; Oth [Fun "h" 8 []]].
Definition ex_lines : list bool := [false; true; true; false; false; false; false; false].
Example ex_names : map (qualname ex_lines ex_source) [1; 2; 3; 4; 5; 6; 7; 8] =
  [Ok "A"; Ok "A.B"; Ok "A.B"; Ok "A.B"; Ok "A.B.f"; Ok "A.B.f.<locals>.C"; Err AttributeError; Ok "h"].
Proof. vm_compute. reflexivity. Qed.
Lemma defines_nil pre l p : ~ Defines pre [] l p.
Proof. intros h. apply defines_node in h. destruct h as (n & [] & _). Qed.
Lemma defines_cons pre n ns l p : Defines pre (n :: ns) l p -> Defines pre [n] l p \/ Defines pre ns l p.
Proof. intros h. apply defines_node in h. destruct h as (m & [e | h] & hd); [subst m; left; exact hd | right; apply defines_node; exists m; split; assumption]. Qed.
Lemma defines_one pre n l p : Defines pre [n] l p ->
  match n with
  | Fun a l0 b => (l = l0 /\ p = pre ++ [a]) \/ Defines (pre ++ [a; "<locals>"]) b l p
  | Cls a l0 b => (l = l0 /\ p = pre ++ [a]) \/ Defines (pre ++ [a]) b l p
  | Oth b => Defines pre b l p
  end.
Proof.
  intros h. inversion h as [? ? ? ? ? i | ? ? ? ? ? i | ? ? ? ? ? ? ? i hd | ? ? ? ? ? ? ? i hd | ? ? ? ? ? i hd]; subst; destruct i as [e | []]; subst n.
  - left. split; reflexivity.
  - left. split; reflexivity.
  - right. exact hd.
  - right. exact hd.
  - exact hd.
Qed.
Lemma ex_defines l p : Defines [] ex_source l p ->
  (l, p) = (1, ["A"]) \/ (l, p) = (2, ["A"; "B"]) \/ (l, p) = (5, ["A"; "B"; "f"]) \/ (l, p) = (6, ["A"; "B"; "f"; "<locals>"; "C"]) \/ (l, p) = (8, ["h"]).
Proof.
  intros h. unfold ex_source in h. apply defines_cons in h. destruct h as [h | h]; apply defines_one in h.
  - destruct h as [[-> ->] | h]; [left; reflexivity|]. apply defines_one in h. destruct h as [[-> ->] | h]; [right; left; reflexivity|].
    apply defines_one in h. destruct h as [[-> ->] | h]; [right; right; left; reflexivity|].
    apply defines_one in h. destruct h as [[-> ->] | h]; [right; right; right; left; reflexivity|]. destruct (defines_nil _ _ _ h).
  - apply defines_one in h. destruct h as [[-> ->] | h]; [right; right; right; right; reflexivity|]. destruct (defines_nil _ _ _ h).
Qed.
Example ex_proper : Proper ex_lines ex_source.
Proof.
  split.
  - intros l p h. apply ex_defines in h. destruct h as [e | [e | [e | [e | e]]]]; injection e as -> ->.
    1: exists 1. 2: exists 4. 3: exists 5. 4: exists 6. 5: exists 8.
    all: split; [lia|]; split; [split; [lia|] | reflexivity]; intros j hj; try lia. assert (hc : j = 2 \/ j = 3) by lia. destruct hc as [-> | ->]; reflexivity.
  - intros l p l' p' k h h' hb hb'. apply ex_defines in h, h'.
    assert (stop : forall i j, i < j -> i <= 8 -> Belongs ex_lines i j -> nth_error ex_lines (i - 1) = Some true) by (intros i j hij _ [_ hbe]; apply hbe; lia).
    assert (le : forall i d, nth_error ex_lines (d - 1) = Some false -> i <= d -> Belongs ex_lines i k -> k <= d).
    { intros i d hd hid [hik hbe]. destruct (Nat.le_gt_cases k d) as [g | g]; [exact g|]. rewrite (hbe d ltac:(lia)) in hd. discriminate. }
    pose proof (proj1 hb) as g1. pose proof (proj1 hb') as g2.
    destruct h as [e | [e | [e | [e | e]]]]; injection e as -> ->; destruct h' as [e | [e | [e | [e | e]]]]; injection e as -> ->; try reflexivity; exfalso.
    all: first [ specialize (le 1 1 eq_refl ltac:(lia) ltac:(assumption)); lia
               | specialize (le 2 4 eq_refl ltac:(lia) ltac:(assumption)); lia
               | specialize (le 5 5 eq_refl ltac:(lia) ltac:(assumption)); lia
               | specialize (le 6 6 eq_refl ltac:(lia) ltac:(assumption)); lia ].
Qed.

Print Assumptions names_exact.
Print Assumptions long_decorator_refuted.
Print Assumptions async_scope_refuted.
