From Coq Require Import Permutation.
From Verif Require Import Jv_Model Jv_Spec Cmp_Spec Cmp_Proofs Jv_Proofs.
Local Open Scope list_scope.

Section Search.
  Variable search : string -> string -> bool.
  Notation validate := (validate search).
  Notation report := (report search).
  Notation Prg := (Sat search program).
  Notation PrgK := (SatK search program).

  Lemma report_eq ex wt l v : report ex wt l v = (do paths <- join_paths (errors search (JObj (without (left_out ex wt) l)) v); Ok (dedup paths)).
  Proof. reflexivity. Qed.

  (** ** which values are accepted *)
  (** A value is returned, as it is, exactly when the keywords that are not left out hold of it, as the program reads them. *)
  Theorem validate_exact : forall excludes with_type l v w,
    validate excludes with_type l v = Ok w <-> w = v /\ Prg (JObj (without (left_out excludes with_type) l)) v.
  Proof.
    intros ex wt l v w. unfold Jv_Model.validate. rewrite report_eq.
    rewrite <- (proj1 (errors_sat search)). pose proof (join_paths_spec (errors search (JObj (without (left_out ex wt) l)) v)) as g.
    destruct (join_paths _) as [r|e]; cbn [rbind].
    - rewrite g. destruct r as [|x r].
      + cbn. split; [intros [= <-]; split; reflexivity|intros [-> _]; reflexivity].
      + destruct (dedup (x :: r)) as [|y s] eqn:ed.
        * exfalso. assert (i : In x (dedup (x :: r))) by (apply dedup_In; left; reflexivity). rewrite ed in i. exact i.
        * split; [discriminate|]. intros [_ n]. cbn in n. discriminate n.
    - destruct g as (-> & p & i & _). split; [discriminate|]. intros [_ n]. rewrite n in i. destruct i.
  Qed.
  (** Where no keyword says a type, refers or defines, and no text meets array keywords, no boolean bounds, that is the
      meaning JSON Schema gives them. *)
  Theorem validate_standard : forall target excludes with_type l v,
    let s := JObj (without (left_out excludes with_type) l) in
    Every untyped s -> Every array_free s \/ TextFree v /\ Every names_free s -> Every number_free s \/ BoolFree v ->
    (validate excludes with_type l v = Ok v <-> Sat search (standard target) s v).
  Proof.
    intros target ex wt l v s hu ha hn. rewrite validate_exact. fold s.
    rewrite (proj1 (agree search target) s v (conj hu (conj ha hn))). split; [intros [_ h]; exact h|intros h; split; [reflexivity|exact h]].
  Qed.

  (** ** how values are refused *)
  (** Every other value is refused with InvalidValue, or with TypeError. *)
  Theorem validate_refuses : forall excludes with_type l v,
    ~ Prg (JObj (without (left_out excludes with_type) l)) v ->
    validate excludes with_type l v = Err InvalidValue \/ validate excludes with_type l v = Err TypeError.
  Proof.
    intros ex wt l v h. destruct (validate ex wt l v) as [w|e] eqn:ev.
    - apply validate_exact in ev. destruct (h (proj2 ev)).
    - revert ev. unfold Jv_Model.validate. rewrite report_eq.
      match goal with |- context [join_paths ?x] => pose proof (join_paths_spec x) as g; destruct (join_paths x) as [r|e'] end; cbn [rbind].
      + destruct (dedup r); [discriminate|]. intros [= <-]. left. reflexivity.
      + destruct g as (-> & _). intros [= <-]. right. reflexivity.
  Qed.
  (** It is InvalidValue unless a position within "allOf" or a list of "items" can take part. *)
  Theorem validate_invalid : forall excludes with_type l v,
    Pathless (JObj (without (left_out excludes with_type) l)) ->
    ~ Prg (JObj (without (left_out excludes with_type) l)) v -> validate excludes with_type l v = Err InvalidValue.
  Proof.
    intros ex wt l v hp h. destruct (validate_refuses ex wt l v h) as [e|e]; [exact e|]. exfalso. revert e.
    unfold Jv_Model.validate. rewrite report_eq.
    destruct (join_paths_ok _ (proj1 (pathless_named search) _ hp v)) as [r ->]. cbn [rbind]. destruct (dedup r); discriminate.
  Qed.
  (** Failing one of the schemas of "allOf" is reported as TypeError, whatever else fails. *)
  Theorem all_of_refuted : forall excludes with_type l ls s v,
    let kept := without (left_out excludes with_type) l in
    (forall u, ~ In (KRef u) kept) -> In (KAllOf ls) kept -> In s ls -> ~ Prg s v ->
    validate excludes with_type l v = Err TypeError.
  Proof.
    intros ex wt l ls s v kept nr hk hs hn. unfold Jv_Model.validate. rewrite report_eq. fold kept.
    assert (hp : exists p, In p (errors search (JObj kept) v) /\ ~ Named p).
    { cbn [errors]. assert (er : has_ref kept = false).
      { destruct (has_ref kept) eqn:e; [|reflexivity]. apply has_ref_spec in e. destruct e as [u i]. destruct (nr u i). }
      rewrite er. apply In_nth_error in hs. destruct hs as [j ej].
      destruct (errors search s v) as [|q qs] eqn:eq; [destruct (hn (proj1 (proj1 (errors_sat search) s v) eq))|].
      exists (inl "allOf"%string :: inr j :: q). split.
      - apply in_flat_map. exists (KAllOf ls). split; [exact hk|]. cbn [kname]. apply in_map. cbn [kerrors].
        assert (g : forall ls i j, nth_error ls j = Some s -> In (inr (i + j) :: q) (indexed (fun i s => map (cons (inr i)) (errors search s v)) i ls)).
        { clear - eq. intros ls. induction ls as [|a ls IH]; intros i [|j] e; try discriminate e; cbn [nth_error] in e; cbn [indexed]; apply in_or_app.
          - injection e as ->. left. rewrite eq, Nat.add_0_r. left. reflexivity.
          - right. rewrite <- plus_n_Sm. exact (IH (S i) j e). }
        exact (g ls 0 j ej).
      - intros h. destruct (h (inr j)) as [n e]; [right; left; reflexivity|discriminate e]. }
    destruct hp as (p & i & n). pose proof (join_paths_spec (errors search (JObj kept) v)) as g. destruct (join_paths _) as [r|e]; cbn [rbind].
    - exfalso. apply n. rewrite g in i. apply in_map_iff in i. destruct i as (q & <- & _). intros x hx. apply in_map_iff in hx.
      destruct hx as (y & <- & _). exists y. reflexivity.
    - destruct g as [-> _]. reflexivity.
  Qed.
  Lemma kname_named k : Called k (kname k).
  Proof. destruct k; try constructor. destruct old; constructor. Qed.
  Lemma named_kname k n : Called k n -> n = kname k.
  Proof. intros h. destruct h; reflexivity. Qed.
  (** The names of keywords, as they are left out and reported. *)
  Theorem left_out_by_name : forall names k l, In k (without names l) <-> In k l /\ forall n, Called k n -> ~ In n names.
  Proof.
    intros names k l. unfold without. rewrite filter_In. split; intros [h1 h2]; (split; [exact h1|]).
    - intros n hn. rewrite (named_kname k n hn). apply negb_true_iff in h2. apply (proj1 (mem_not_In _ _ _)) in h2. exact h2.
    - apply negb_true_iff. apply mem_not_In. apply h2. apply kname_named.
  Qed.
  (** The report names a keyword exactly when that keyword fails. *)
  Theorem report_names : forall excludes with_type l v r name,
    let kept := without (left_out excludes with_type) l in
    (forall u, ~ In (KRef u) kept) -> report excludes with_type l v = Ok r ->
    ((exists p, In (name :: p) r) <-> exists k, In k kept /\ Called k name /\ ~ PrgK kept k v).
  Proof.
    intros ex wt l v r name kept nr. rewrite report_eq. fold kept.
    pose proof (join_paths_spec (errors search (JObj kept) v)) as g. destruct (join_paths _) as [q|e]; cbn [rbind]; [|discriminate].
    intros [= <-]. cbn [errors] in g.
    assert (er : has_ref kept = false).
    { destruct (has_ref kept) eqn:e; [|reflexivity]. apply has_ref_spec in e. destruct e as [u i]. destruct (nr u i). }
    rewrite er in g. split.
    - intros [p i]. apply dedup_In in i. apply (in_map (map (@inl string nat))) in i. rewrite <- g in i. apply in_flat_map in i.
      destruct i as (k & ik & i). apply in_map_iff in i. destruct i as (p' & e & i). cbn [map] in e. injection e as e1 e2.
      exists k. split; [exact ik|]. split; [subst name; apply kname_named|]. intros hs. apply (proj2 (errors_sat search)) in hs. assert (i' : In p' (kerrors search kept k v)) by exact i. rewrite hs in i'. destruct i'.
    - intros (k & ik & hname & hn). apply named_kname in hname. subst name. destruct (kerrors search kept k v) as [|p ps] eqn:e.
      + destruct hn. apply (proj2 (errors_sat search)). exact e.
      + assert (i : In (inl (kname k) :: p) (map (map (@inl string nat)) q)).
        { rewrite <- g. apply in_flat_map. exists k. split; [exact ik|].
          change (In (inl (kname k) :: p) (map (cons (inl (kname k))) (kerrors search kept k v))). rewrite e. left. reflexivity. }
        apply in_map_iff in i. destruct i as (x & ex' & ix). destruct x as [|n x]; [discriminate ex'|]. cbn [map] in ex'. injection ex' as e1 e2.
        exists x. apply dedup_In. rewrite <- e1. exact ix.
  Qed.

  (** ** the order of keywords does not matter *)
  Lemma positions_perm l l' p : Permutation l l' -> NoDup (map kname l) -> Positions l p -> Positions l' p.
  Proof.
    intros hp nd (a & b & e & _).
    assert (i : In (KItemsAt p) l') by (apply (Permutation_in _ hp); subst l; apply in_or_app; right; left; reflexivity).
    apply in_split in i. destruct i as (a' & b' & e'). exists a', b'. split; [exact e'|]. intros q hq.
    assert (nd' : NoDup (map kname l')) by (apply (Permutation_NoDup (Permutation_map kname hp)); exact nd).
    rewrite e', map_app in nd'. cbn [map] in nd'. apply NoDup_remove_2 in nd'. apply nd'. apply in_or_app. left.
    apply in_map_iff. exists (KItemsAt q). split; [reflexivity|exact hq].
  Qed.
  Lemma extra_perm l l' k : Permutation l l' -> Extra search l k -> Extra search l' k.
  Proof.
    intros hp [h1 h2]. apply Permutation_sym in hp. split.
    - intros p i. exact (h1 p (Permutation_in _ hp i)).
    - intros p q i. exact (h2 p q (Permutation_in _ hp i)).
  Qed.
  Lemma satk_perm l l' k v : Permutation l l' -> NoDup (map kname l) -> PrgK l k v -> PrgK l' k v.
  Proof.
    intros hp nd. assert (nd' : NoDup (map kname l')) by (apply (Permutation_NoDup (Permutation_map kname hp)); exact nd).
    destruct k; cbn [SatK]; try (intros h; exact h).
    - intros h a ea p i x hpos. apply (h a ea p i x). exact (positions_perm l' l p (Permutation_sym hp) nd' hpos).
    - intros h d ed k x i he. apply (h d ed k x i). exact (extra_perm l' l k (Permutation_sym hp) he).
  Qed.
  Theorem keyword_order : forall excludes with_type l l' v, Permutation l l' -> NoDup (map kname l) ->
    (validate excludes with_type l v = Ok v <-> validate excludes with_type l' v = Ok v).
  Proof.
    assert (half : forall ex wt l l' v, Permutation l l' -> NoDup (map kname l) -> validate ex wt l v = Ok v -> validate ex wt l' v = Ok v).
    { intros ex wt l l' v hp nd h. apply validate_exact in h. apply validate_exact. split; [reflexivity|]. destruct h as [_ h].
      assert (hf : Permutation (without (left_out ex wt) l) (without (left_out ex wt) l')).
      { unfold without. clear -hp. induction hp; cbn [filter].
        - constructor.
        - destruct (negb _); [constructor|]; assumption.
        - destruct (negb (mem (kname y) _)), (negb (mem (kname x) _)); try apply Permutation_refl. apply perm_swap.
        - eapply Permutation_trans; eassumption. }
      assert (nf : NoDup (map kname (without (left_out ex wt) l))).
      { unfold without. clear -nd. induction l as [|k l IH]; cbn [filter]; [constructor|]. cbn [map] in nd. inversion nd as [|? ? n1 n2]; subst.
        destruct (negb _); [|exact (IH n2)]. cbn [map]. constructor; [|exact (IH n2)]. intros i. apply n1. apply in_map_iff in i.
        destruct i as (x & e & i). apply filter_In in i. apply in_map_iff. exists x. split; [exact e|exact (proj1 i)]. }
      cbn [Sat] in h. cbn [Sat]. destruct h as [[r [u i]]|h]; [left; split; [exact r|]; exists u; exact (Permutation_in _ hf i)|right].
      rewrite All_iff in h. apply All_iff. intros k i. apply (satk_perm _ _ k v hf nf). apply h. exact (Permutation_in _ (Permutation_sym hf) i). }
    intros ex wt l l' v hp nd. split; [apply half; assumption|]. apply half; [apply Permutation_sym; exact hp|].
    exact (Permutation_NoDup (Permutation_map kname hp) nd).
  Qed.

  (** ** what is not looked at *)
  (** With a reference nothing is checked. *)
  Theorem references_refuted : forall with_type excludes l u v, ~ In "$ref"%string excludes -> In (KRef u) l -> validate excludes with_type l v = Ok v.
  Proof.
    intros wt ex l u v hx i. apply validate_exact. split; [reflexivity|]. left. split; [reflexivity|]. exists u. apply filter_In. split; [exact i|].
    apply negb_true_iff. apply mem_not_In. destruct wt; [exact hx|]. intros h. apply in_app_or in h. destruct h as [h|[h|[]]]; [exact (hx h)|discriminate h].
  Qed.
  (** The "type" keyword says nothing: a choice of types accepts anything, an exclusive choice or an excluded type nothing. *)
  Lemma typed t v : Prg (JObj [KType t]) v.
  Proof. right. split; [exact I|exact I]. Qed.
  Theorem any_of_types_refuted : forall excludes with_type t ts v,
    validate excludes with_type [KAnyOf (map (fun t => JObj [KType [t]]) (t :: ts))] v = Ok v.
  Proof.
    intros ex wt t ts v. apply validate_exact. split; [reflexivity|]. unfold without. cbn [filter]. destruct (negb _).
    - right. split; [|exact I]. left. apply typed.
    - right. exact I.
  Qed.
  Theorem one_of_types_refuted : forall with_type t t' ts v,
    validate [] with_type [KOneOf (map (fun t => JObj [KType [t]]) (t :: t' :: ts))] v = Err InvalidValue.
  Proof.
    intros wt t t' ts v. assert (e : without (left_out [] wt) [KOneOf (map (fun t => JObj [KType [t]]) (t :: t' :: ts))] = [KOneOf (map (fun t => JObj [KType [t]]) (t :: t' :: ts))]).
    { destruct wt; reflexivity. }
    apply validate_invalid; rewrite e; [split; exact I|].
    intros [[_ [u [h|[]]]]|[h _]]; [discriminate h|]. cbn [SatK map One] in h.
    destruct h as [[_ [h _]]|[h _]]; apply h; apply typed.
  Qed.
  Theorem not_type_refuted : forall with_type t v, validate [] with_type [KNot (JObj [KType t])] v = Err InvalidValue.
  Proof.
    intros wt t v. assert (e : without (left_out [] wt) [KNot (JObj [KType t])] = [KNot (JObj [KType t])]) by (destruct wt; reflexivity).
    apply validate_invalid; rewrite e; [split; exact I|]. intros [[_ [u [h|[]]]]|[h _]]; [discriminate h|]. apply h. apply typed.
  Qed.
  (** ** what is looked at and should not be *)
  (** A property that bears the name of a definition must satisfy it. *)
  Theorem definitions_refuted : forall with_type old defs l name s d x,
    (forall u, ~ In (KRef u) l) -> In (KDefs old defs) l -> In (name, s) defs -> dget name d = Some x -> ~ Prg s x ->
    validate [] with_type l (VDict d) <> Ok (VDict d).
  Proof.
    intros wt old defs l name s d x nr hk hd e hn h. apply validate_exact in h. destruct h as [_ [[_ [u i]]|h]].
    - apply filter_In in i. exact (nr u (proj1 i)).
    - rewrite All_iff in h. specialize (h (KDefs old defs)). cbn [SatK] in h.
      assert (i : In (KDefs old defs) (without (left_out [] wt) l)).
      { apply filter_In. split; [exact hk|]. destruct wt, old; reflexivity. }
      specialize (h i eq_refl d eq_refl). rewrite All_iff in h. exact (hn (h (name, s) hd x e)).
  Qed.
  (** A text counts as the array of its characters, a boolean as a number. *)
  Theorem text_items_refuted : forall with_type n t, String.length t < n -> validate [] with_type [KMinItems n] (VStr t) = Err InvalidValue.
  Proof.
    intros wt n t lt. assert (e : without (left_out [] wt) [KMinItems n] = [KMinItems n]) by (destruct wt; reflexivity).
    apply validate_invalid; rewrite e; [split; exact I|]. intros [[_ [u [h|[]]]]|[h _]]; [discriminate h|].
    specialize (h (characters t) eq_refl). unfold characters in h. rewrite map_length in h.
    assert (len : length (list_ascii_of_string t) = String.length t) by (clear; induction t; cbn; [reflexivity|rewrite IHt; reflexivity]). lia.
  Qed.
  Theorem boolean_bounds_refuted : forall with_type z b, (1 < z)%Z -> validate [] with_type [KMin z] (VBool b) = Err InvalidValue.
  Proof.
    intros wt z b lt. assert (e : without (left_out [] wt) [KMin z] = [KMin z]) by (destruct wt; reflexivity).
    apply validate_invalid; rewrite e; [split; exact I|]. intros [[_ [u [h|[]]]]|[h _]]; [discriminate h|].
    specialize (h _ eq_refl). destruct b; lia.
  Qed.
End Search.

(** * Examples *)
Local Open Scope string_scope.
Local Open Scope list_scope.
Definition demo_search (p t : string) : bool := String.prefix p t.
(** a schema of an order: lines with a positive count, either a discount code or a total, no other members *)
Definition demo_schema : list jkw :=
  [KProps [("lines", JObj [KMinItems 1; KItems (JObj [KRequired ["count"]; KProps [("count", JObj [KExMin 0])]])]); ("total", JObj [KMin 0])];
   KPats [("x-", JObj [KMaxLen 3])]; KMore (JBool false); KRequired ["lines"];
   KOneOf [JObj [KRequired ["total"]]; JObj [KRequired ["x-code"]]]].
Definition demo_order (n : Z) : pyval := VDict [("lines", VList [VDict [("count", VInt n)]]); ("x-code", VStr "abc")].
Example ex_accept : validate demo_search [] false demo_schema (demo_order 2) = Ok (demo_order 2).
Proof. reflexivity. Qed.
Example ex_refuse : validate demo_search [] false demo_schema (demo_order 0) = Err InvalidValue.
Proof. reflexivity. Qed.
Example ex_report : report demo_search [] false demo_schema (VDict [("lines", VList []); ("y", VNone)])
  = Ok [["properties"; "lines"; "minItems"]; ["additionalProperties"]; ["oneOf"]].
Proof. reflexivity. Qed.
(** left out: as the validation of an object does *)
Example ex_left_out : validate demo_search ["required"; "properties"; "propertiesAdditional"; "additionalProperties"] false demo_schema (demo_order 0)
  = Ok (demo_order 0).
Proof. reflexivity. Qed.
(** the hypotheses of [validate_standard], [validate_invalid] and [keyword_order] *)
Definition demo_total (n : Z) : pyval := VDict [("lines", VList [VDict [("count", VInt n)]]); ("total", VInt 7)].
Ltac within h :=
  repeat match goal with
         | h : False |- _ => destruct h
         | h : In _ _ |- _ => cbn in h
         | h : _ \/ _ |- _ => destruct h as [h|h]
         | h : _ = _ |- _ => inversion h; subst; clear h
         | h : Within _ (VDict _) |- _ => inversion h; subst; clear h
         | h : Within _ (VList _) |- _ => inversion h; subst; clear h
         | h : Within _ (VInt _) |- _ => inversion h
         end.
Example ex_hypotheses : Every untyped (JObj demo_schema) /\ (TextFree (demo_total 2) /\ Every names_free (JObj demo_schema)) /\ BoolFree (demo_total 2)
  /\ Pathless (JObj demo_schema) /\ NoDup (map kname demo_schema) /\ validate demo_search [] false demo_schema (demo_total 2) = Ok (demo_total 2).
Proof.
  split; [cbn; tauto|]. split; [split; [|cbn; tauto]|split; [|split; [cbn; tauto|split; [|reflexivity]]]].
  - intros s h. unfold demo_total in h. within h.
  - intros b h. unfold demo_total in h. within h.
  - repeat constructor; cbn; intuition discriminate.
Qed.
Example ex_all_of : validate demo_search [] false [KAllOf [JObj [KMin 3]]] (VInt 2) = Err TypeError.
Proof. reflexivity. Qed.
Example ex_definitions : validate demo_search [] false [KDefs false [("size", JObj [KMin 3])]] (VDict [("size", VInt 2)]) = Err InvalidValue.
Proof. reflexivity. Qed.

Print Assumptions validate_exact.
Print Assumptions validate_standard.
Print Assumptions validate_refuses.
Print Assumptions validate_invalid.
Print Assumptions all_of_refuted.
Print Assumptions report_names.
Print Assumptions keyword_order.
Print Assumptions references_refuted.
Print Assumptions any_of_types_refuted.
Print Assumptions one_of_types_refuted.
Print Assumptions not_type_refuted.
Print Assumptions definitions_refuted.
Print Assumptions text_items_refuted.
Print Assumptions boolean_bounds_refuted.
