(** C85: a scalar type has the keywords of its schema and of those it refers to *)
From Coq Require Import Lia.
From Verif Require Import Sct_Model Build_Model Build_Props Order_Spec Order_Proofs Order_Props Sct_Spec Sct_Proofs.
Local Open Scope string_scope.
Local Open Scope list_scope.

Section Loaded.
  Variable docs : dict string sch.
  Variable type_ enum_ : nat.
  Variable accepts : sch -> bool.
  Variable underscore : string -> string.
  Notation L := (load docs type_ enum_ accepts underscore).
  Notation Ls := (Loads docs type_ enum_ accepts underscore).

  Lemma load_S n id w : L (S n) id w = match dget id (t_reg w) with
                                       | Some t => (Ok t, w)
                                       | None => match dget id docs with None => (Err InvalidValue, w) | Some s => build_with type_ enum_ accepts underscore (L n) id s w end
                                       end.
  Proof. reflexivity. Qed.
  Lemma loads_inv w0 w : Start docs type_ enum_ w0 -> Plain docs underscore -> forall w1, Inv docs w0 w1 -> Ls w1 w -> Inv docs w0 w /\ After docs w1 w.
  Proof.
    intros st pl w1 i h. induction h as [w1|w1 n id t w2 w3 e h IH]; [split; [exact i|apply after_refl]|].
    destruct (dmem id docs) eqn:d.
    - destruct (load_inv docs type_ enum_ accepts underscore w0 st pl n id w1 t w2 i d e) as (i2 & af & _).
      destruct (IH i2) as (i3 & af'). split; [exact i3|]. exact (after_trans _ _ _ _ af af').
    - assert (w2 = w1) as ->; [|exact (IH i)]. destruct n as [|n]; [discriminate|]. cbn [load] in e. destruct (dget id (t_reg w1)); [congruence|].
      unfold dmem in d. destruct (dget id docs); [discriminate|]. discriminate.
  Qed.

  (** Loaded after any other types, a type has for each keyword the value its schema gives, or else that of the schema it refers to, and
      so on; and it has no other keyword, but for the name of its type. *)
  Theorem loaded_keywords : forall w0 w n id t w', Start docs type_ enum_ w0 -> Plain docs underscore -> Ls w0 w -> dmem id docs = true -> L n id w = (Ok t, w') ->
    forall k v, (Given docs id k v -> keyword w' t k = Some v) /\ (k <> "type" -> keyword w' t k = Some v -> Given docs id k v).
  Proof.
    intros w0 w n id t w' st pl h d e k v. destruct (loads_inv w0 w st pl w0 (inv_start docs type_ enum_ w0 st) h) as (i & _).
    destruct (load_inv docs type_ enum_ accepts underscore w0 st pl n id w t w' i d e) as (_ & _ & _ & _ & (d1 & d2 & _)). split; [apply d2|apply d1].
  Qed.
  (** Its default is the one given, by itself or by those it refers to; or else the first value of the nearest enumeration. *)
  Theorem loaded_default : forall w0 w n id t w', Start docs type_ enum_ w0 -> Plain docs underscore -> Ls w0 w -> dmem id docs = true -> L n id w = (Ok t, w') ->
    forall v, class_default w' t = Some v <-> DefaultOf docs id v.
  Proof.
    intros w0 w n id t w' st pl h d e. destruct (loads_inv w0 w st pl w0 (inv_start docs type_ enum_ w0 st) h) as (i & _).
    destruct (load_inv docs type_ enum_ accepts underscore w0 st pl n id w t w' i d e) as (_ & _ & _ & _ & (_ & _ & d3 & _)). exact d3.
  Qed.
  (** Whatever is loaded afterwards, in particular types that refer to it, a type stays registered, the same, with the same keywords and
      default. *)
  Theorem loaded_stable : forall w0 w n id t w' w'', Start docs type_ enum_ w0 -> Plain docs underscore -> Ls w0 w -> dmem id docs = true -> L n id w = (Ok t, w') -> Ls w' w'' ->
    (forall m, L (S m) id w'' = (Ok t, w'')) /\ (forall k, keyword w'' t k = keyword w' t k) /\ class_default w'' t = class_default w' t.
  Proof.
    intros w0 w n id t w' w'' st pl h d e h'. destruct (loads_inv w0 w st pl w0 (inv_start docs type_ enum_ w0 st) h) as (i & _).
    destruct (load_inv docs type_ enum_ accepts underscore w0 st pl n id w t w' i d e) as (i' & _ & g & lt & _).
    destruct (loads_inv w0 w'' st pl w' i' h') as (i'' & (m & em) & ar). split; [|split].
    - intros m'. cbn [load]. rewrite (ar id t d g). reflexivity.
    - intros k. unfold keyword. rewrite (schema_ext w' w'' m _ (i_lin _ _ _ i') em lt). reflexivity.
    - unfold class_default. exact (attr_ext _ w' w'' m _ (i_lin _ _ _ i') em lt).
  Qed.
  (** A schema that only refers to another is that type itself. *)
  Theorem reference_same : forall w0 w n id s r t w', Start docs type_ enum_ w0 -> Plain docs underscore -> Ls w0 w -> dget id docs = Some s ->
    dget "$ref" s = Some (VStr r) -> ddel "$ref" s = [] -> dget id (t_reg w) = None -> L n id w = (Ok t, w') -> forall m, L (S m) r w' = (Ok t, w').
  Proof.
    intros w0 w n id s r t w' st pl h hd hr hx hg e m. destruct (loads_inv w0 w st pl w0 (inv_start docs type_ enum_ w0 st) h) as (i & _).
    destruct n as [|n]; [discriminate|]. cbn [load] in e. rewrite hg, hd in e. unfold build_with in e. rewrite hr, hx in e.
    destruct (load docs type_ enum_ accepts underscore n r w) as [[tr|] w1] eqn:er; [|discriminate]. injection e as <- <-.
    destruct (load_inv docs type_ enum_ accepts underscore w0 st pl n r w tr w1 i (proj1 (proj2 pl) id s r hd hr) er) as (_ & _ & g & _).
    cbn [load register t_reg]. rewrite dget_dset. destruct (eq_dec r id); [reflexivity|]. rewrite g. reflexivity.
  Qed.

  (** the schemas that can be loaded in [n] references: a registered type with any keywords, an enumeration of one, or a reference to such a
      schema with further constraints *)
  Inductive Loadable (w0 : tw) : nat -> string -> Prop :=
  | loadable_type id s n : dget id docs = Some s -> dget "$ref" s = None -> dget "enum" s = None ->
      (dget "type" s = None \/ exists t c, dget "type" s = Some (VStr t) /\ dget t (t_types w0) = Some c) -> Loadable w0 n id
  | loadable_enum id s n : dget id docs = Some s -> dget "$ref" s = None -> dmem "enum" s = true ->
      (dget "type" s = None \/ exists t c, dget "type" s = Some (VStr t) /\ dget t (t_types w0) = Some c /\ c <> enum_) -> Loadable w0 n id
  | loadable_ref id s r n : dget id docs = Some s -> dget "$ref" s = Some (VStr r) -> dget "enum" s = None -> dget "type" s = None ->
      dget "id" s = None -> dget "cls" s = None -> Loadable w0 n r -> Loadable w0 (S n) id.
  (** the registered types but Enum can follow Enum in a class *)
  Definition Mixable (w0 : tw) : Prop := forall t c, dget t (t_types w0) = Some c -> c <> enum_ ->
    exists l, Compatible [lin (t_classes w0) enum_; lin (t_classes w0) c; [enum_; c]] l.
  Lemma mro_ext lin1 lin2 (bases : list nat) : (forall x, In x bases -> lin1 x = lin2 x) -> mro lin1 bases = mro lin2 bases.
  Proof. intros h. unfold mro, mro_seqs. rewrite (map_ext_in _ _ bases h). reflexivity. Qed.
  Lemma extra_nil cs x y : extra_bases type_ cs [] (x :: y) = x :: y.
  Proof.
    unfold extra_bases. cbn [existsb negb]. assert (e : filter (fun _ : nat => true) (x :: y) = x :: y); [|rewrite e; reflexivity].
    generalize (x :: y). intros l. induction l as [|z l IH]; [reflexivity|]. cbn [filter]. rewrite IH. reflexivity.
  Qed.
  Lemma head_first lin (a : nat) bs l : (forall x, In x bs -> exists t, lin x = x :: t) -> (exists t, lin a = a :: t) -> mro lin (a :: bs) = Ok l -> exists l', l = a :: l'.
  Proof.
    intros hb ha e. destruct (mro_is_c3_linearisation _ _ _ _ _ e) as (c & _ & _ & sb & _). destruct l as [|x l]; [inversion sb|]. exists l.
    inversion c as [|? pre ? t post seqs' ? eqs hn _ _ _]; subst. f_equal. assert (j : In (x :: t) (map lin (a :: bs) ++ [a :: bs])).
    { rewrite eqs. apply in_or_app. right. left. reflexivity. }
    apply in_app_or in j. destruct j as [j|[j|[]]]; [|congruence]. apply in_map_iff in j. destruct j as (y & ey & [<-|j]).
    - destruct ha as (t' & e'). congruence.
    - destruct (hb y j) as (t' & e'). assert (y = x) as -> by congruence. exfalso. apply (hn (a :: bs)); [apply in_or_app; right; left; reflexivity|exact j].
  Qed.
  Theorem load_succeeds : forall w0 w n id, (forall s, accepts s = true) -> Start docs type_ enum_ w0 -> Plain docs underscore -> Mixable w0 -> Ls w0 w ->
    Loadable w0 n id -> exists t w', L (S n) id w = (Ok t, w').
  Proof.
    intros w0 w n id ac st pl mix h lo. destruct (loads_inv w0 w st pl w0 (inv_start docs type_ enum_ w0 st) h) as (i & _). clear h.
    assert (one : forall w c, Inv docs w0 w -> c < length (t_classes w) -> exists l, mro (lin (t_classes w)) [c] = Ok l).
    { intros w' c i' lt. destruct (linok_lin _ c (i_lin _ _ _ i') lt) as ((l & e) & nd & _). exists (lin (t_classes w') c). eapply mro_of_one_class; [exact e|exact nd]. }
    assert (two : forall w c, Inv docs w0 w -> c < length (t_classes w0) -> (exists t, dget t (t_types w0) = Some c) -> c <> enum_ -> exists l, mro (lin (t_classes w)) [enum_; c] = Ok l).
    { intros w' c i' lt (t & e) ne. destruct (i_classes _ _ _ i') as (m & em).
      rewrite (mro_ext (lin (t_classes w')) (lin (t_classes w0))).
      - destruct (mro_terminates _ _ (lin (t_classes w0)) [enum_; c]) as [y|y]; [exact y|]. exfalso.
        apply (proj1 (mro_fails_iff_inconsistent _ _ _ _)) in y. apply y. exact (mix t c e ne).
      - intros x j. rewrite em. apply lin_ext. destruct j as [<-|[<-|[]]]; [exact (proj2 (st_known _ _ _ _ st))|exact lt]. }
    assert (made : forall s bases w, Inv docs w0 w -> (bases = [] \/ exists c0, bases = [c0] /\ c0 < length (t_classes w)) ->
               (exists tys, named_type s w = Ok tys /\
                  exists l, mro (lin (t_classes w)) (bases ++ extra_bases type_ (t_classes w) bases ((if dmem "enum" s then [enum_] else []) ++ tys)) = Ok l) ->
               exists c w1, scalar_class type_ enum_ s bases [] w = (Ok c, w1)).
    { intros s bases w' i' hb (tys & e & l & e'). unfold scalar_class. rewrite e. cbn [existsb map app]. rewrite e'. eauto. }
    revert w i. induction lo as [id s n hd hr he ht|id s n hd hr he ht|id s r n hd hr he ht hi hc lo IH]; intros w i.
    - cbn [load]. destruct (dget id (t_reg w)) as [t|]; [eauto|]. rewrite hd. unfold build_with. rewrite hr.
      destruct (proj1 pl id s hd) as (hx & _). assert (ex : extends_of s = []) by (unfold extends_of; rewrite hx; reflexivity). rewrite ex. cbn [load_all].
      destruct (made s [] w i (or_introl eq_refl)) as (c & w1 & ->); [|rewrite ac; eauto]. unfold named_type, dmem. rewrite he, (i_types _ _ _ i). pose proof (builtin_lt docs w0 w i) as bl.
      destruct ht as [e|(t & c & e & e')]; rewrite e.
      + exists []. split; [reflexivity|]. cbn [app extra_bases filter]. apply one; [exact i|]. pose proof (proj1 (st_known _ _ _ _ st)). lia.
      + rewrite e'. exists [c]. split; [reflexivity|]. cbn [app]. rewrite extra_nil. apply one; [exact i|]. pose proof (st_types _ _ _ _ st _ _ e'). lia.
    - cbn [load]. destruct (dget id (t_reg w)) as [t|]; [eauto|]. rewrite hd. unfold build_with. rewrite hr.
      destruct (proj1 pl id s hd) as (hx & _). assert (ex : extends_of s = []) by (unfold extends_of; rewrite hx; reflexivity). rewrite ex. cbn [load_all].
      destruct (made s [] w i (or_introl eq_refl)) as (c & w1 & ->); [|rewrite ac; eauto]. unfold named_type. rewrite he, (i_types _ _ _ i). pose proof (builtin_lt docs w0 w i) as bl.
      destruct ht as [e|(t & c & e & e' & ne)]; rewrite e.
      + exists []. split; [reflexivity|]. cbn [app]. rewrite extra_nil. apply one; [exact i|]. pose proof (proj2 (st_known _ _ _ _ st)). lia.
      + rewrite e'. exists [c]. split; [reflexivity|]. cbn [app]. rewrite extra_nil. apply two; [exact i|exact (st_types _ _ _ _ st _ _ e')|eauto|exact ne].
    - rewrite load_S. destruct (dget id (t_reg w)) as [t|]; [eauto|]. rewrite hd. unfold build_with. rewrite hr.
      destruct (IH w i) as (t & w1 & e). rewrite e.
      destruct (load_inv docs type_ enum_ accepts underscore w0 st pl _ r w t w1 i (proj1 (proj2 pl) id s r hd hr) e) as (i1 & _ & _ & lt & _).
      assert (dk : forall k, k <> "$ref" -> dget k (ddel "$ref" s) = dget k s) by (intros k ne; rewrite dget_ddel; destruct (eq_dec k "$ref"); [contradiction|reflexivity]).
      destruct (ddel "$ref" s) as [|kv rest] eqn:hx; [eauto|]. rewrite <- hx in *.
      assert (db : forall k, k <> "$ref" -> dmem k (ddel "$ref" s) = dmem k s) by (intros k ne; unfold dmem; rewrite dk by exact ne; reflexivity).
      assert (dm : forall k, dget k s = None -> dmem k s = false) by (intros k q; unfold dmem; rewrite q; reflexivity).
      rewrite (db "id"), (db "cls"), (dm _ hi), (dm _ hc) by discriminate. cbn [orb].
      assert (ex : extends_of (ddel "$ref" s) = []) by (unfold extends_of; rewrite dk by discriminate; rewrite (proj1 (proj1 pl id s hd)); reflexivity). rewrite ex. cbn [load_all].
      destruct (made (ddel "$ref" s) [class_of t] w1 i1 (or_intror (ex_intro _ _ (conj eq_refl lt)))) as (c & w2 & ->); [|eauto].
      exists []. unfold named_type. rewrite dk by discriminate. rewrite ht. split; [reflexivity|]. rewrite (db "enum") by discriminate. rewrite (dm _ he). cbn [app extra_bases filter].
      apply one; assumption.
  Qed.

  (** * What a property of such a type holds *)
  (** A property whose type is a registered type, or an enumeration, or only refers to one, holds its value as the type evaluates it. *)
  Theorem plain_read : forall ev mk w0 w n id id' t w', Start docs type_ enum_ w0 -> Plain docs underscore -> Ls w0 w -> dmem id docs = true -> L n id w = (Ok t, w') ->
    Stands docs id id' -> ~ Refines docs id' -> exists c, class_of t = c /\ forall v, read ev mk w' t v = do x <- ev c v; Ok (HVal x).
  Proof.
    intros ev mk w0 w n id id' t w' st pl h d e sd nr. destruct (loads_inv w0 w st pl w0 (inv_start docs type_ enum_ w0 st) h) as (i & _).
    destruct (load_inv docs type_ enum_ accepts underscore w0 st pl n id w t w' i d e) as (_ & _ & _ & _ & (_ & _ & _ & id2 & sd2 & k)).
    assert (id2 = id') as ->.
    { clear -sd sd2. revert id' sd. induction sd2 as [id s e h|id s r id2 e e1 e2 sd2 IH]; intros id' sd; inversion sd; subst; try congruence.
      - destruct h; congruence. - match goal with q : _ \/ _ |- _ => destruct q; congruence end. - apply IH. congruence. }
    destruct t as [c|c]; [contradiction|]. exists c. split; [reflexivity|]. intros v. reflexivity.
  Qed.
  (** A property whose type refers to another with keywords of its own never holds a value: its type is a class, not an instance of one, so
      that giving it a value makes another type of it, or raises. *)
  Theorem refined_read_refuted : forall ev mk w0 w n id id' t w', Start docs type_ enum_ w0 -> Plain docs underscore -> Ls w0 w -> dmem id docs = true -> L n id w = (Ok t, w') ->
    Stands docs id id' -> Refines docs id' -> forall v,
      (read ev mk w' t v = Err TypeError \/ (exists e, mk v = Err e /\ read ev mk w' t v = Err e) \/ (mk v = Ok tt /\ read ev mk w' t v = Ok (HType (class_of t)))) /\
      forall x, read ev mk w' t v <> Ok (HVal x).
  Proof.
    intros ev mk w0 w n id id' t w' st pl h d e sd rf v. destruct (loads_inv w0 w st pl w0 (inv_start docs type_ enum_ w0 st) h) as (i & _).
    destruct (load_inv docs type_ enum_ accepts underscore w0 st pl n id w t w' i d e) as (_ & _ & _ & _ & (_ & _ & _ & id2 & sd2 & k)).
    assert (id2 = id') as ->.
    { clear -sd sd2. revert id' sd. induction sd2 as [id s e h|id s r id2 e e1 e2 sd2 IH]; intros id' sd; inversion sd; subst; try congruence.
      - destruct h; congruence. - match goal with q : _ \/ _ |- _ => destruct q; congruence end. - apply IH. congruence. }
    destruct t as [c|c]; [|contradiction]. cbn [read class_of]. destruct (attr k_init w' c) as [[]|]; try (split; [left; reflexivity | discriminate]).
    destruct (mk v) as [[]|e1]; cbn [rbind]; (split; [|discriminate]); [right; right; split; reflexivity | right; left; exists e1; split; reflexivity].
  Qed.

  (** * Defaults *)
  (** The first value of an enumeration is not the default of a type that narrows another with a default: the other's is, even when the
      enumeration does not have it. *)
  Theorem narrowed_default_refuted : forall w0 w n id s r t w' d l, Start docs type_ enum_ w0 -> Plain docs underscore -> Ls w0 w -> dget id docs = Some s ->
    dget "$ref" s = Some (VStr r) -> dget "enum" s = Some (VList l) -> dget "default" s = None -> Given docs r "default" d -> ~ In d l -> L n id w = (Ok t, w') ->
    keyword w' t "enum" = Some (VList l) /\ class_default w' t = Some d.
  Proof.
    intros w0 w n id s r t w' d l st pl h hd hr he hn g _ e. assert (dm : dmem id docs = true) by (unfold dmem; rewrite hd; reflexivity). split.
    - apply (loaded_keywords w0 w n id t w' st pl h dm e). eapply given_here; [exact hd|discriminate|exact he].
    - apply (loaded_default w0 w n id t w' st pl h dm e). apply default_given. eapply given_there; eauto.
  Qed.
  (** An enumeration made with a default that counts as false uses its first value instead when it evaluates a missing value. *)
  Theorem false_default_refuted : forall w0 w n id s t w' d v l, Start docs type_ enum_ w0 -> Plain docs underscore -> Ls w0 w -> dget id docs = Some s ->
    dget "$ref" s = None -> dget "enum" s = Some (VList (v :: l)) -> dget "default" s = Some d -> dget id (t_reg w) = None -> L n id w = (Ok t, w') ->
    class_default w' t = Some d /\ inst_default enum_ w' (class_of t) = Some (if truthy d then d else v).
  Proof.
    intros w0 w n id s t w' d v l st pl h hd hr he hn hg e. assert (dm : dmem id docs = true) by (unfold dmem; rewrite hd; reflexivity).
    assert (cd : class_default w' t = Some d).
    { apply (loaded_default w0 w n id t w' st pl h dm e). apply default_given. eapply given_here; [exact hd|discriminate|exact hn]. }
    split; [exact cd|]. pose proof (proj1 (loaded_keywords w0 w n id t w' st pl h dm e "default" d) (given_here docs id s "default" d hd ltac:(discriminate) hn)) as kd.
    pose proof (proj1 (loaded_keywords w0 w n id t w' st pl h dm e "enum" _) (given_here docs id s "enum" _ hd ltac:(discriminate) he)) as ke.
    unfold keyword in kd, ke. unfold inst_default. rewrite kd.
    assert (en : enum_of (schema_of w' (class_of t)) = v :: l) by (unfold enum_of; rewrite ke; reflexivity). rewrite en.
    destruct (loads_inv w0 w st pl w0 (inv_start docs type_ enum_ w0 st) h) as (i & _).
    assert (hl : exists x l', lin (t_classes w') (class_of t) = x :: enum_ :: l').
    { destruct n as [|n]; [discriminate|]. cbn [load] in e. rewrite hg, hd in e. unfold build_with in e. rewrite hr in e.
      assert (ex : extends_of s = []) by (unfold extends_of; rewrite (proj1 (proj1 pl id s hd)); reflexivity). rewrite ex in e. cbn [load_all] in e.
      destruct (scalar_class type_ enum_ s [] [] w) as [[c|] w1] eqn:es; [|discriminate]. destruct (accepts _); [|discriminate]. injection e as <- <-.
      unfold scalar_class in es. destruct (named_type s w) as [tys|] eqn:et; [|discriminate]. cbn [existsb map app] in es. unfold dmem in es. rewrite he in es.
      cbn [app] in es. rewrite extra_nil in es. destruct (mro (lin (t_classes w)) (enum_ :: tys)) as [l1|] eqn:em; [|discriminate]. injection es as <- <-.
      cbn [class_of register t_classes add_class]. unfold lin. rewrite nth_error_app2, Nat.sub_diag by lia. cbn [nth_error k_lin].
      pose proof (builtin_lt docs w0 w i) as bl. pose proof (proj2 (st_known _ _ _ _ st)) as kn.
      destruct (head_first (lin (t_classes w)) enum_ tys l1) with (3 := em) as (l' & ->); [| |eauto].
      - intros x j. pose proof (named_builtin docs type_ enum_ w0 st s w tys i et x j). apply (linok_lin _ x (i_lin _ _ _ i)). lia.
      - apply (linok_lin _ enum_ (i_lin _ _ _ i)). lia. }
    destruct hl as (x & l' & ->). cbn [firstn]. assert (mm : mem enum_ [x; enum_] = true).
    { apply (mem_In EqDec_nat). right. left. reflexivity. }
    rewrite mm. destruct (truthy d); reflexivity.
  Qed.
End Loaded.
Print Assumptions loaded_keywords. Print Assumptions loaded_default. Print Assumptions loaded_stable. Print Assumptions reference_same. Print Assumptions load_succeeds.
Print Assumptions plain_read. Print Assumptions refined_read_refuted. Print Assumptions narrowed_default_refuted. Print Assumptions false_default_refuted.

(** * Refused schemas *)
(** A type cannot extend another scalar type: what is registered for that one is not a class. *)
Theorem extends_refused_refuted : forall docs type_ enum_ accepts underscore n id (s : sch) u l c w w1, dget id (t_reg w) = None -> dget id docs = Some s -> dget "$ref" s = None ->
  dget "extends" s = Some (VList (VStr u :: l)) -> load docs type_ enum_ accepts underscore n u w = (Ok (TInst c), w1) ->
  exists e w2, load docs type_ enum_ accepts underscore (S n) id w = (Err e, w2).
Proof.
  intros docs type_ enum_ accepts underscore n id s u l c w w1 hg hd hr hx hl. rewrite load_S, hg, hd. unfold build_with. rewrite hr.
  unfold extends_of. rewrite hx. cbn [flat_map app load_all]. rewrite hl. destruct (load_all _ _ w1) as [[ts|e] w2]; [|eauto].
  unfold scalar_class. destruct (named_type s w2); [|eauto]. cbn [existsb orb]. eauto.
Qed.
Print Assumptions extends_refused_refuted.
(** A type that is not registered, or a list of types, is refused, and so is a reference that is no text; nothing is made or registered. *)
Theorem unknown_type_refused : forall docs type_ enum_ accepts underscore n id (s : sch) w, dget id (t_reg w) = None -> dget id docs = Some s ->
  (forall v, dget "$ref" s = Some v -> (forall r, v <> VStr r) -> load docs type_ enum_ accepts underscore (S n) id w = (Err TypeError, w)) /\
  (dget "$ref" s = None -> dget "extends" s = None ->
    (forall t, dget "type" s = Some (VStr t) -> dget t (t_types w) = None -> load docs type_ enum_ accepts underscore (S n) id w = (Err KeyError, w)) /\
    (forall l, dget "type" s = Some (VList l) -> load docs type_ enum_ accepts underscore (S n) id w = (Err TypeError, w)) /\
    (forall b, dget "type" s = Some (VBool b) -> load docs type_ enum_ accepts underscore (S n) id w = (Err KeyError, w))).
Proof.
  intros docs type_ enum_ accepts underscore n id s w hg hd. rewrite load_S, hg, hd. unfold build_with. split.
  - intros v hv hn. rewrite hv. destruct v; try reflexivity. destruct (hn _ eq_refl).
  - intros hr hx. rewrite hr. unfold extends_of. rewrite hx. cbn [load_all]. unfold scalar_class, named_type.
    split; [|split]; [intros t ht hy; rewrite ht, hy | intros l ht; rewrite ht | intros b ht; rewrite ht]; reflexivity.
Qed.
Print Assumptions unknown_type_refused.
(** An enumeration cannot name the type it is. *)
Theorem enum_type_refuted : forall docs type_ enum_ accepts underscore n id (s : sch) w, dget id (t_reg w) = None -> dget id docs = Some s -> dget "$ref" s = None ->
  dget "extends" s = None -> dmem "enum" s = true -> dget "type" s = Some (VStr "enum") -> dget "enum" (t_types w) = Some enum_ ->
  load docs type_ enum_ accepts underscore (S n) id w = (Err TypeError, w).
Proof.
  intros docs type_ enum_ accepts underscore n id s w hg hd hr hx he ht hy. rewrite load_S, hg, hd. unfold build_with. rewrite hr.
  unfold extends_of. rewrite hx. cbn [load_all]. unfold scalar_class, named_type. rewrite ht, hy, he. cbn [existsb map app]. rewrite extra_nil.
  assert (e : mro (lin (t_classes w)) [enum_; enum_] = Err TypeError); [|cbn [app]; rewrite e; reflexivity].
  apply mro_fails_iff_inconsistent. intros (l & nd & hs). assert (s2 : Subseq [enum_; enum_] l) by (apply hs; apply in_or_app; right; left; reflexivity).
  apply Subseq_cons_inv in s2. destruct s2 as (p & q & -> & s2). apply (Subseq_In _ _ enum_) in s2; [|left; reflexivity].
  apply NoDup_remove_2 in nd. apply nd. apply in_or_app. right. exact s2.
Qed.
Print Assumptions enum_type_refuted.

(** * Examples *)
(** the classes Type, Enum, Integer, Number, String *)
Definition ex_classes : list kls :=
  [ {| k_lin := [0]; k_schema := None; k_default := None; k_init := Some INone |};
    {| k_lin := [1; 0]; k_schema := Some [("type", VStr "enum")]; k_default := None; k_init := Some INone |};
    {| k_lin := [2; 0]; k_schema := Some [("type", VStr "integer")]; k_default := None; k_init := Some INone |};
    {| k_lin := [3; 0]; k_schema := Some [("type", VStr "number")]; k_default := None; k_init := Some ITakes |};
    {| k_lin := [4; 0]; k_schema := Some [("type", VStr "string")]; k_default := None; k_init := Some INone |} ].
Definition ex_world : tw := {| t_classes := ex_classes; t_types := [("enum", 1); ("integer", 2); ("number", 3); ("string", 4)]; t_reg := [] |}.
Definition ex_docs : dict string sch :=
  [ ("#/int", [("type", VStr "integer"); ("minimum", VInt 0); ("description", VStr "natural")]);
    ("#/small", [("$ref", VStr "#/int"); ("maximum", VInt 10); ("description", VStr "small")]);
    ("#/alias", [("$ref", VStr "#/small")]);
    ("#/colour", [("type", VStr "string"); ("enum", VList [VStr "red"; VStr "blue"])]);
    ("#/warm", [("$ref", VStr "#/hue"); ("enum", VList [VStr "red"; VStr "orange"])]);
    ("#/hue", [("type", VStr "string"); ("default", VStr "blue")]);
    ("#/bit", [("type", VStr "integer"); ("enum", VList [VInt 1; VInt 0]); ("default", VInt 0)]);
    ("#/ratio", [("type", VStr "number")]);
    ("#/share", [("$ref", VStr "#/ratio"); ("maximum", VInt 1)]);
    ("#/more", [("type", VStr "integer"); ("extends", VList [VStr "#/int"])]);
    ("#/bad", [("type", VStr "enum"); ("enum", VList [VInt 1])]) ].
Definition ex_load (id : string) (w : tw) := load ex_docs 0 1 (fun _ => true) (fun s => s) 5 id w.
(** those without 'extends' *)
Definition ex_plain : dict string sch := filter (fun d => negb (dmem "extends" (snd d))) ex_docs.
Example start_ex : Start ex_plain 0 1 ex_world.
Proof.
  constructor.
  - intros [|[|[|[|[|n]]]]] k e; cbn in e; try (injection e as <-; split; [eexists; reflexivity|]; split; [repeat constructor; cbn; intuition lia|cbn; intuition lia]).
    destruct n; discriminate.
  - intros [|[|[|[|[|n]]]]] k e; cbn in e; try (injection e as <-; reflexivity). destruct n; discriminate.
  - intros [|[|[|[|[|n]]]]] lt k ne; [reflexivity| | | | |cbn in lt; lia];
      cbv [ex_world schema_of attr first_attr lin t_classes nth_error ex_classes k_lin k_schema find map]; cbn [dget]; (destruct (eq_dec k "type"); [contradiction|reflexivity]).
  - intros t c. cbn [ex_world t_types dget]. repeat (destruct (eq_dec t _); [intros h; injection h as <-; cbn; lia|]). discriminate.
  - cbn. lia.
  - reflexivity.
Qed.
Example plain_ex : Plain ex_plain (fun s => s).
Proof.
  split; [|split; [|auto]].
  - intros id s e. apply dget_In in e. cbn in e. repeat (destruct e as [e|e]; [injection e as <- <-; split; [reflexivity|unfold dwf; repeat constructor; cbn; intuition discriminate]|]). destruct e.
  - intros id s r e h. apply dget_In in e. cbn in e. repeat (destruct e as [e|e]; [injection e as <- <-; cbn in h; try discriminate; injection h as <-; reflexivity|]). destruct e.
Qed.
Example mixable_ex : Mixable 1 ex_world.
Proof.
  assert (go : forall c, c <> 1 -> c <> 0 -> lin ex_classes c = [c; 0] -> exists l, Compatible [lin ex_classes 1; lin ex_classes c; [1; c]] l).
  { intros c ne ne' e. exists [1; c; 0]. split; [repeat constructor; cbn; intuition lia|]. rewrite e. intros s [<-|[<-|[<-|[]]]]; repeat constructor. }
  intros t c. cbn [ex_world t_types dget]. repeat (destruct (eq_dec t _); [intros h; injection h as <-; intros ne; first [contradiction|refine (go _ _ _ _); [lia|lia|reflexivity]]|]). intros h. discriminate h.
Qed.
Example small_ex : exists c w, ex_load "#/alias" ex_world = (Ok (TClass c), w) /\ keyword w (TClass c) "minimum" = Some (VInt 0) /\
  keyword w (TClass c) "maximum" = Some (VInt 10) /\ keyword w (TClass c) "description" = Some (VStr "small") /\ keyword w (TClass c) "type" = Some (VStr "integer") /\
  read (fun _ v => Ok v) (fun _ => Ok tt) w (TClass c) (VInt 3) = Err TypeError.
Proof. eexists _, _. repeat split. Qed.
Example loadable_ex : Loadable ex_plain 1 ex_world 2 "#/alias" /\ Refines ex_plain "#/small" /\ Stands ex_plain "#/alias" "#/small" /\ Loadable ex_plain 1 ex_world 0 "#/colour".
Proof.
  assert (sm : Loadable ex_plain 1 ex_world 1 "#/small").
  { eapply loadable_ref; try reflexivity. eapply loadable_type; try reflexivity. right. exists "integer", 2. split; reflexivity. }
  split; [eapply loadable_ref; try reflexivity; exact sm|]. split; [|split].
  - eexists _, _. repeat split. discriminate.
  - eapply stands_there; try reflexivity. eapply stands_here; [reflexivity|]. right. discriminate.
  - eapply loadable_enum; try reflexivity. right. exists "string", 4. repeat split. discriminate.
Qed.
Example defaults_ex :
  (exists t w, ex_load "#/colour" ex_world = (Ok t, w) /\ class_default w t = Some (VStr "red")) /\
  (exists t w, ex_load "#/warm" ex_world = (Ok t, w) /\ class_default w t = Some (VStr "blue")) /\
  (exists t w, ex_load "#/bit" ex_world = (Ok t, w) /\ class_default w t = Some (VInt 0) /\ inst_default 1 w (class_of t) = Some (VInt 1)).
Proof. split; [|split]; eexists _, _; repeat split. Qed.
Example share_ex : exists c w, ex_load "#/share" ex_world = (Ok (TClass c), w) /\ read (fun _ v => Ok v) (fun _ => Ok tt) w (TClass c) (VInt 3) = Ok (HType c).
Proof. eexists _, _. repeat split. Qed.
Example refused_ex : fst (ex_load "#/more" ex_world) = Err TypeError /\ fst (ex_load "#/bad" ex_world) = Err TypeError.
Proof. split; reflexivity. Qed.
