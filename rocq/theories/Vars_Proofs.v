From Coq Require Import Lia.
From Verif Require Import Vars_Spec Str_Proofs Ns_Proofs.
From Verif Require Export Vars_Model.
Local Open Scope char_scope. Local Open Scope list_scope.

Lemma starts_name_spec c : starts_name c = true <-> letter c.
Proof.
  unfold starts_name, letter, is_lower, is_upper. rewrite !orb_true_iff, !in_range_spec, (beq_true EqDec_ascii). cbn zeta. tauto.
Qed.
Lemma name_char_spec c : name_char c = true <-> wordy c.
Proof.
  unfold name_char, wordy, follower, is_digit. rewrite !orb_true_iff, starts_name_spec, in_range_spec, (beq_true EqDec_ascii). cbn zeta. tauto.
Qed.
Lemma starts_name_false c : starts_name c = false <-> ~ letter c.
Proof. rewrite <- starts_name_spec. destruct (starts_name c); split; congruence. Qed.
Lemma name_char_false c : name_char c = false <-> ~ wordy c.
Proof. rewrite <- name_char_spec. destruct (name_char c); split; congruence. Qed.
Lemma follower_not_letter c : follower c -> ~ letter c.
Proof.
  unfold follower, letter. cbn zeta. intros [h|h] [k|[k|k]]; subst; try lia; try (vm_compute in h; lia); try (vm_compute in k; lia). discriminate.
Qed.

Lemma scan_run w r : Forall wordy w -> ended r -> scan true (w ++ r) = (w, snd (scan false r)).
Proof.
  intros h e. induction h as [|c w hc h IH]; cbn [app].
  - destruct r as [|d r]; [reflexivity|]. cbn [ended] in e. cbn [scan]. rewrite (proj2 (name_char_false d) e).
    assert (n : ~ letter d) by (intros l; apply e; left; exact l). apply starts_name_false in n. rewrite n. reflexivity.
  - cbn [scan]. rewrite (proj2 (name_char_spec c) hc), IH. reflexivity.
Qed.
Lemma run_split s : exists w r, s = w ++ r /\ Forall wordy w /\ ended r.
Proof.
  induction s as [|c s (w & r & -> & hw & hr)]; [exists [], []; repeat split; constructor|].
  destruct (name_char c) eqn:e.
  - apply name_char_spec in e. exists (c :: w), r. repeat split; [constructor; assumption|exact hr].
  - apply name_char_false in e. exists [], (c :: w ++ r). repeat split; [constructor|exact e].
Qed.
Lemma scan_skip c s : ~ letter c -> scan false (c :: s) = scan false s.
Proof. intros h. cbn [scan]. apply starts_name_false in h. rewrite h. reflexivity. Qed.
Lemma scan_open c w r : letter c -> Forall wordy w -> ended r -> snd (scan false (c :: w ++ r)) = (c :: w) :: snd (scan false r).
Proof. intros hc hw hr. cbn [scan]. rewrite (proj2 (starts_name_spec c) hc), (scan_run w r hw hr). reflexivity. Qed.
Lemma scan_ended d r : ~ wordy d -> scan false (d :: r) = scan false r.
Proof. intros h. apply scan_skip. intros l. apply h. left. exact l. Qed.

Lemma unopened_snoc a c : ~ wordy c -> unopened (a ++ [c]).
Proof. intros h. right. eauto. Qed.

Lemma scan_sound n k : forall s a m, length s <= k -> unopened a -> Forall follower m ->
  In n (snd (scan false s)) -> Mentions (a ++ m ++ s) n.
Proof.
  induction k as [|k IH]; intros s a m hl ha hm i.
  { destruct s; [destruct i|cbn in hl; lia]. }
  destruct s as [|c s]; [destruct i|]. cbn [length] in hl.
  destruct (starts_name c) eqn:ec.
  - apply starts_name_spec in ec. destruct (run_split s) as (w & r & -> & hw & hr).
    rewrite (scan_open c w r ec hw hr) in i. destruct i as [<-|i].
    + exists a, m, c, w, r. repeat split; try assumption.
    + destruct r as [|d r]; [destruct i|]. cbn [ended] in hr. rewrite (scan_ended d r hr) in i.
      rewrite app_length in hl. cbn [length] in hl.
      specialize (IH r (a ++ m ++ c :: w ++ [d]) [] ltac:(lia)).
      assert (e : a ++ m ++ c :: w ++ d :: r = (a ++ m ++ c :: w ++ [d]) ++ [] ++ r).
      { cbn [app]. rewrite <- !app_assoc. cbn [app]. rewrite <- app_assoc. reflexivity. }
      rewrite e. apply IH; [|constructor|exact i].
      replace (a ++ m ++ c :: w ++ [d]) with ((a ++ m ++ c :: w) ++ [d]) by (rewrite <- !app_assoc; reflexivity).
      apply unopened_snoc. exact hr.
  - apply starts_name_false in ec. rewrite (scan_skip c s ec) in i.
    destruct (name_char c) eqn:en.
    + apply name_char_spec in en. destruct en as [en|en]; [contradiction|].
      replace (a ++ m ++ c :: s) with (a ++ (m ++ [c]) ++ s) by (rewrite <- !app_assoc; reflexivity).
      apply IH; [lia|exact ha| |exact i]. apply Forall_app. split; [exact hm|]. constructor; [exact en|constructor].
    + apply name_char_false in en.
      replace (a ++ m ++ c :: s) with ((a ++ m ++ [c]) ++ [] ++ s) by (cbn [app]; rewrite <- !app_assoc; reflexivity).
      apply IH; [lia| |constructor|exact i]. rewrite app_assoc. apply unopened_snoc. exact en.
Qed.
Lemma scan_break c x : ~ wordy c -> forall a inside n, In n (snd (scan false x)) -> In n (snd (scan inside (a ++ c :: x))).
Proof.
  intros hc. induction a as [|d a IH]; intros inside n i; cbn [app].
  - pose proof (scan_ended c x hc) as e. destruct inside; cbn [scan].
    + rewrite (proj2 (name_char_false c) hc). exact i.
    + cbn [scan] in e. rewrite e. exact i.
  - cbn [scan]. destruct inside.
    + destruct (name_char d).
      * pose proof (IH true n i) as k. destruct (scan true (a ++ c :: x)). exact k.
      * cbn [snd]. apply IH. exact i.
    + destruct (starts_name d).
      * pose proof (IH true n i) as k. destruct (scan true (a ++ c :: x)). right. exact k.
      * apply IH. exact i.
Qed.
Lemma scan_after a x n : unopened a -> In n (snd (scan false x)) -> In n (snd (scan false (a ++ x))).
Proof.
  intros [->|(a' & c & -> & hc)] i; [exact i|]. rewrite <- app_assoc. apply scan_break; assumption.
Qed.
Lemma scan_followers m x : Forall follower m -> scan false (m ++ x) = scan false x.
Proof.
  induction 1 as [|c m hc hm IH]; [reflexivity|]. cbn [app]. rewrite scan_skip by (apply follower_not_letter; exact hc). exact IH.
Qed.
Lemma scan_mentions s n : In n (snd (scan false s)) <-> Mentions s n.
Proof.
  split.
  - intros i. apply (scan_sound n (length s) s [] []); [lia|left; reflexivity|constructor|exact i].
  - intros (a & m & c & w & b & -> & ha & hm & -> & hc & hw & hb). apply scan_after; [exact ha|].
    rewrite scan_followers by exact hm. cbn [app]. rewrite (scan_open c w b hc hw hb). left. reflexivity.
Qed.

(** * names of expressions *)
Lemma ex_ind' (P : ex -> Prop) : (forall n, P (EName n)) -> (forall args t, Forall (fun a => P (snd a)) args -> P (ENode args t)) -> forall e, P e.
Proof.
  intros hn ha. fix F 1. intros [n|args t]; [apply hn|]. apply ha.
  induction args as [|[s x] l IH]; constructor; [apply F|exact IH].
Qed.
Lemma unopened_app a b : b <> [] -> unopened b -> unopened (a ++ b).
Proof. intros hb [->|(b' & c & -> & hc)]; [congruence|]. rewrite app_assoc. apply unopened_snoc. exact hc. Qed.
Fixpoint texts (args : list (str * ex)) (t : str) : str := match args with [] => t | (s, x) :: l => s ++ text x ++ texts l t end.
Fixpoint wf_args (first : bool) (args : list (str * ex)) (t : str) : Prop :=
  match args with
  | [] => first = true \/ ended t
  | (s, x) :: l => unopened s /\ (first = true \/ (s <> [] /\ ended s)) /\ WellFormed x /\ wf_args false l t
  end.
Definition names_of (args : list (str * ex)) : list str := flat_map (fun a => names (snd a)) args.
Lemma text_node args t : text (ENode args t) = texts args t.
Proof. cbn [text]. induction args as [|[s x] l IH]; cbn [texts]; [reflexivity|]. rewrite IH. reflexivity. Qed.
Lemma names_node args t : names (ENode args t) = names_of args.
Proof. cbn [names]. unfold names_of. induction args as [|[s x] l IH]; cbn [flat_map snd]; [reflexivity|]. rewrite IH. reflexivity. Qed.
Lemma wf_node args t : WellFormed (ENode args t) <-> wf_args true args t.
Proof.
  assert (F : forall l f, (fix go (first : bool) (l : list (str * ex)) : Prop :=
         match l with
         | [] => first = true \/ ended t
         | (s, x) :: l' => unopened s /\ (first = true \/ (s <> [] /\ ended s)) /\ WellFormed x /\ go false l'
         end) f l <-> wf_args f l t).
  { induction l as [|[s x] l IH]; intros f; cbn [wf_args]; [tauto|]. rewrite IH. tauto. }
  exact (F args true).
Qed.
Lemma texts_ended args t b : wf_args false args t -> ended b -> ended (texts args t ++ b).
Proof.
  destruct args as [|[s x] l]; cbn [wf_args texts].
  - intros [h|h] hb; [discriminate|]. destruct t; [exact hb|exact h].
  - intros (_ & [h|[h1 h2]] & _) _; [discriminate|]. destruct s; [congruence|exact h2].
Qed.
Lemma names_mentioned e : WellFormed e -> forall a b n, unopened a -> ended b -> In n (names e) -> Mentions (a ++ text e ++ b) n.
Proof.
  induction e as [x|args t H] using ex_ind'; intros wf a b n ha hb i.
  - cbn [names] in i. destruct i as [<-|[]]. destruct wf as (c & w & -> & hc & hw). cbn [text].
    exists a, [], c, w, b. repeat split; try assumption. constructor.
  - rewrite wf_node in wf. rewrite names_node in i. rewrite text_node.
    assert (hfirst : true = true -> unopened a) by (intros _; exact ha). clear ha.
    enough (G : forall first a, wf_args first args t -> (first = true -> unopened a) -> In n (names_of args) -> Mentions (a ++ texts args t ++ b) n)
      by exact (G true a wf hfirst i).
    clear a wf hfirst i. induction H as [|[s x] l hx H IH]; intros first a wf hfirst i; [destruct i|].
    destruct wf as (hs & hs2 & wx & wl). cbn [texts]. unfold names_of in i. cbn [flat_map snd] in i.
    assert (hA : unopened (a ++ s)).
    { destruct s as [|s0 s']; [|apply unopened_app; [discriminate|exact hs]]. rewrite app_nil_r.
      destruct hs2 as [h|[h _]]; [exact (hfirst h)|congruence]. }
    apply in_app_or in i. destruct i as [i|i].
    + replace (a ++ (s ++ text x ++ texts l t) ++ b) with ((a ++ s) ++ text x ++ (texts l t ++ b)) by (rewrite <- !app_assoc; reflexivity).
      apply hx; [exact wx|exact hA|apply texts_ended; assumption|exact i].
    + replace (a ++ (s ++ text x ++ texts l t) ++ b) with ((a ++ s ++ text x) ++ texts l t ++ b) by (rewrite <- !app_assoc; reflexivity).
      apply (IH false (a ++ s ++ text x)); [exact wl|discriminate|exact i].
Qed.
Lemma meaning_ext {V} (sem : list str -> list (res V) -> res V) look look' e :
  (forall n, In n (names e) -> look n = look' n) -> meaning sem look e = meaning sem look' e.
Proof.
  induction e as [x|args t H] using ex_ind'; intros h.
  - apply h. left. reflexivity.
  - rewrite names_node in h. cbn [meaning]. f_equal. induction H as [|[s x] l hx H IH]; [reflexivity|]. f_equal.
    + apply hx. intros n i. apply h. unfold names_of. cbn [flat_map snd]. apply in_or_app. left. exact i.
    + apply IH. intros n i. apply h. unfold names_of. cbn [flat_map snd]. apply in_or_app. right. exact i.
Qed.

(** * Templates *)
Lemma join_all_app a b : join_all (a ++ b) = do x <- join_all a; do y <- join_all b; Ok (x ++ y).
Proof.
  induction a as [|[s|] a IH]; cbn [app join_all rbind]; [destruct (join_all b); reflexivity| |reflexivity].
  rewrite IH. destruct (join_all a) as [x|]; cbn [rbind]; [|reflexivity]. destruct (join_all b); cbn [rbind]; [|reflexivity].
  rewrite app_assoc. reflexivity.
Qed.
Lemma reference_read r p : Reference r p -> exists var, join_all (rev var) = Ok p /\ forall ts, variables true [] (r ++ ts) = variables true var ts.
Proof.
  induction 1 as [n h|r p n hr (var & hj & hv) hn|r p i hr (var & hj & hv)].
  - exists [Some n]. split; [cbn; rewrite app_nil_r; reflexivity|]. intros ts. cbn [app variables tok_value].
    rewrite (proj2 (beq_false _ (Some n) (Some ["|"]))) by congruence. reflexivity.
  - exists (Some n :: Some ["."] :: var). split.
    + cbn [rev]. rewrite !join_all_app, hj. cbn [join_all rbind app]. rewrite app_nil_r, <- app_assoc. reflexivity.
    + intros ts. rewrite <- app_assoc, hv. cbn [app variables tok_value].
      rewrite (proj2 (beq_false _ (Some ["."]) (Some ["|"]))) by discriminate.
      rewrite (proj2 (beq_false _ (Some n) (Some ["|"]))) by congruence. reflexivity.
  - exists (Some ("[" :: i ++ ["]"]) :: var). split.
    + cbn [rev]. rewrite !join_all_app, hj. cbn [join_all rbind app]. rewrite app_nil_r. reflexivity.
    + intros ts. rewrite <- app_assoc, hv. cbn [app variables tok_value].
      rewrite (proj2 (beq_false _ (Some ["."]) (Some ["|"]))) by discriminate. reflexivity.
Qed.
Lemma variables_begin var ts : variables false var (TBegin :: ts) = variables true var ts.
Proof. reflexivity. Qed.
Lemma template_read ts vs : Template ts vs -> variables false [] ts = Ok vs.
Proof.
  induction 1 as [|t ts vs ht h IH|r p ts vs hr h IH|r p ts vs hr h IH]; [reflexivity| | |].
  - destruct t; try exact IH. congruence.
  - rewrite variables_begin. destruct (reference_read r p hr) as (var & hj & hv). rewrite hv. cbn [variables]. rewrite hj, IH. reflexivity.
  - rewrite variables_begin. destruct (reference_read r p hr) as (var & hj & hv). rewrite hv. cbn [variables tok_value]. rewrite (beq_refl _), hj, IH. reflexivity.
Qed.
Lemma remove_none old s : (forall a b, s <> a ++ old ++ b) -> remove_all old 0 s = s.
Proof.
  induction s as [|c s IH]; intros h; [reflexivity|]. cbn [remove_all].
  destruct (is_prefix old (c :: s)) eqn:e.
  - apply is_prefix_spec in e. destruct e as (r & e). destruct (h [] r e).
  - f_equal. apply IH. intros a b k. apply (h (c :: a) b). rewrite k. reflexivity.
Qed.
Lemma own_read p q : Own p q -> without_this p = q.
Proof.
  unfold without_this. destruct 1 as [p h|p h|p h].
  - rewrite (remove_none (chars "this.") p) by (intros a b; apply h). apply remove_none. intros a b. apply h.
  - assert (e : remove_all (chars "this.") 0 (chars "this." ++ p) = remove_all (chars "this.") 0 p) by reflexivity.
    rewrite e, (remove_none (chars "this.") p) by (intros a b; apply h). apply remove_none. intros a b. apply h.
  - assert (e : remove_all (chars "this.") 0 (chars "self." ++ p) = chars "self." ++ remove_all (chars "this.") 0 p) by reflexivity.
    rewrite e, (remove_none (chars "this.") p) by (intros a b; apply h).
    assert (e2 : remove_all (chars "self.") 0 (chars "self." ++ p) = remove_all (chars "self.") 0 p) by reflexivity.
    rewrite e2. apply remove_none. intros a b. apply h.
Qed.
