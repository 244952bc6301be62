(** C71. Making objects: the class chosen by the data or by a key. *)
From Verif Require Import Base PyVal Types_Model Fkey_Model Uri_Model Types_Props Fkey_Props Mk_Model Mk_Spec.
Local Open Scope string_scope.
Local Open Scope list_scope.

Lemma pop_schema_spec (d : data) : forall s d', pop_schema d = Some (s, d') <-> dget "$schema" d = Some s /\ truthy s = true /\ d' = ddel "$schema" d.
Proof.
  intros s d'. unfold pop_schema. destruct (dget "$schema" d) as [x|]; [|split; [discriminate|intros (e & _); discriminate]].
  destruct (truthy x) eqn:t.
  - split; [intros e; injection e as <- <-; auto|intros (e & _ & ->); injection e as <-; reflexivity].
  - split; [discriminate|intros (e & t' & _); congruence].
Qed.
Lemma pop_ddel (d : data) : pop_schema (ddel "$schema" d) = None.
Proof. unfold pop_schema. rewrite dget_ddel. destruct (eq_dec _ _) as [_|n]; [reflexivity|congruence]. Qed.

Section S.
  Variable sub : nat -> nat -> bool.
  Variable entity : nat -> bool.
  Variable cid : nat -> list ascii.
  Variable idc : list ascii -> res (list ascii).
  Variable load : list ascii -> res nat.
  Variable inst_class : nat -> nat.
  Variable inst_data : nat -> data.
  Variable dict_of : pyval -> res data.
  Variable session : option (list (nat * repo)).
  Notation make := (make sub entity cid idc load inst_class inst_data dict_of session).
  Notation call := (call sub entity cid idc load inst_class inst_data dict_of session).

  Hypothesis sub_refl : forall c, sub c c = true.
  Lemma dict_no_key d : is_key (VDict d) = false.
  Proof. unfold is_key; cbn; apply Bool.andb_false_r. Qed.
  Lemma call_plain : forall n c d kw, pop_schema d = None -> call (S n) c [VDict d] kw = (Ok {| m_class := c; m_inits := [d] |}, [VDict d]).
  Proof.
    intros n c d kw e. cbn [Mk_Model.call select]. rewrite e, dict_no_key. unfold init, value_of. rewrite dict_no_key.
    destruct (entity c) eqn:ec; cbn [m_class]; rewrite sub_refl, ec; reflexivity.
  Qed.
  (** Data that names no schema makes an object of the class called, initialised once with the data, which is left as it was. *)
  Theorem make_plain : forall c d, pop_schema d = None -> make c [VDict d] [] = (Ok {| m_class := c; m_inits := [d] |}, [VDict d]).
  Proof. intros c d e. apply (call_plain 1 c d [] e). Qed.

  (** The schema named by the data, read in the class called. *)
  Lemma pop_named d s : dget "$schema" d = Some (VStr s) -> s <> "" -> pop_schema d = Some (VStr s, ddel "$schema" d).
  Proof. intros g ne. apply pop_schema_spec. split; [exact g|]. split; [|reflexivity]. cbn. rewrite (proj2 (beq_false _ s "") ne). reflexivity. Qed.
  (** Data that names the schema of the class called makes an object of this class. *)
  Theorem make_own_schema : forall c d s, dget "$schema" d = Some (VStr s) -> s <> "" -> idc (scope (chars s) (cid c)) = Ok (cid c) ->
    make c [VDict d] [] = (Ok {| m_class := c; m_inits := [ddel "$schema" d] |}, [VDict (ddel "$schema" d)]).
  Proof.
    intros c d s g ne ei. unfold Mk_Model.make. remember 1 as n eqn:en. cbn [Mk_Model.call select]. rewrite (pop_named d s g ne), dict_no_key.
    replace (if entity c then Ok c else Ok c) with (@Ok nat c) by (destruct (entity c); reflexivity). unfold schema_id. rewrite ei, beq_refl.
    cbn [m_class m_inits]. rewrite sub_refl. unfold init, value_of. rewrite dict_no_key. destruct (entity c); reflexivity.
  Qed.
  (** Data that names another schema makes an object of the class of that schema, whatever the class called; its data is the data without
      the name. When the class is a subclass of the class called the object is initialised twice. *)
  Theorem make_schema : forall c d s t k, dget "$schema" d = Some (VStr s) -> s <> "" ->
    idc (scope (chars s) (cid c)) = Ok t -> t <> cid c -> load t = Ok k ->
    make c [VDict d] [] = (Ok {| m_class := k; m_inits := repeat (ddel "$schema" d) (if sub k c then 2 else 1) |}, [VDict (ddel "$schema" d)]).
  Proof.
    intros c d s t k g ne ei nt el. unfold Mk_Model.make. remember 1 as n eqn:en. cbn [Mk_Model.call select]. rewrite (pop_named d s g ne), dict_no_key.
    replace (if entity c then Ok c else Ok c) with (@Ok nat c) by (destruct (entity c); reflexivity). unfold schema_id. rewrite ei.
    rewrite (proj2 (beq_false _ t (cid c)) nt), el, en, (call_plain 0 k _ [] (pop_ddel d)). cbn [m_class m_inits].
    destruct (sub k c); [|reflexivity]. unfold init, value_of. rewrite dict_no_key. destruct (entity k); reflexivity.
  Qed.
  (** A name that cannot be resolved raises; it is gone from the caller's data all the same. *)
  Theorem make_unknown_schema : forall c d s t e, dget "$schema" d = Some (VStr s) -> s <> "" ->
    idc (scope (chars s) (cid c)) = Ok t -> t <> cid c -> load t = Err e -> make c [VDict d] [] = (Err e, [VDict (ddel "$schema" d)]).
  Proof.
    intros c d s t e g ne ei nt el. unfold Mk_Model.make. remember 1 as n eqn:en. cbn [Mk_Model.call select]. rewrite (pop_named d s g ne), dict_no_key.
    replace (if entity c then Ok c else Ok c) with (@Ok nat c) by (destruct (entity c); reflexivity). unfold schema_id. rewrite ei.
    rewrite (proj2 (beq_false _ t (cid c)) nt), el. reflexivity.
  Qed.
  (** The object made need not be an instance of the class called. *)
  Theorem make_instance_refuted : forall c d s t k, dget "$schema" d = Some (VStr s) -> s <> "" ->
    idc (scope (chars s) (cid c)) = Ok t -> t <> cid c -> load t = Ok k -> sub k c = false ->
    exists o, fst (make c [VDict d] []) = Ok o /\ sub (m_class o) c = false.
  Proof. intros c d s t k g ne ei nt el h. rewrite (make_schema c d s t k g ne ei nt el). eexists. split; [reflexivity|exact h]. Qed.
  (** The same data used a second time makes an object of the class called: the first use has removed the name. *)
  Theorem make_again_refuted : forall c d s t k, dget "$schema" d = Some (VStr s) -> s <> "" ->
    idc (scope (chars s) (cid c)) = Ok t -> t <> cid c -> load t = Ok k -> k <> c ->
    exists o o' args, make c [VDict d] [] = (Ok o, args) /\ fst (make c args []) = Ok o' /\ m_class o = k /\ m_class o' = c /\ m_data o = m_data o'.
  Proof.
    intros c d s t k g ne ei nt el nk. rewrite (make_schema c d s t k g ne ei nt el). do 3 eexists. split; [reflexivity|].
    rewrite (make_plain c _ (pop_ddel d)). split; [reflexivity|]. cbn [m_class]. split; [reflexivity|]. split; [reflexivity|].
    unfold m_data. cbn [m_inits]. destruct (sub k c); reflexivity.
  Qed.

  (** * keywords *)
  Definition given (kw : data) : data := filter (fun kv => negb (mem (fst kv) reserved)) kw.
  Lemma call_keywords : forall n c kw, pop_schema kw = None -> dget "value" kw = None -> entity c = false ->
    call (S n) c [] kw = (Ok {| m_class := c; m_inits := [given kw] |}, []).
  Proof.
    intros n c kw e ev ec. cbn [Mk_Model.call select]. rewrite e, ec. cbn [m_class]. rewrite sub_refl. unfold init, value_of. rewrite ec, ev. reflexivity.
  Qed.
  (** Keywords that name a schema make an object of its class too; the data of the last initialisation still holds the name when the class is
      a subclass of the class called. *)
  Theorem make_keywords : forall c kw s t k, dget "$schema" kw = Some (VStr s) -> s <> "" -> dget "value" kw = None ->
    entity c = false -> entity k = false -> idc (scope (chars s) (cid c)) = Ok t -> t <> cid c -> load t = Ok k ->
    make c [] kw = (Ok {| m_class := k; m_inits := given (ddel "$schema" kw) :: (if sub k c then [given kw] else []) |}, []).
  Proof.
    intros c kw s t k g ne gv ec ek ei nt el. unfold Mk_Model.make. remember 1 as n eqn:en. cbn [Mk_Model.call select]. rewrite (pop_named kw s g ne), ec.
    unfold schema_id. rewrite ei, (proj2 (beq_false _ t (cid c)) nt), el, en.
    assert (gv' : dget "value" (ddel "$schema" kw) = None) by (rewrite dget_ddel; destruct (eq_dec _ _); [reflexivity|exact gv]).
    rewrite (call_keywords 0 k _ (pop_ddel kw) gv' ek). cbn [m_class m_inits]. destruct (sub k c); [|reflexivity].
    unfold init, value_of. rewrite ek, gv. reflexivity.
  Qed.
  (** The data given as the keyword [value] does not choose the class. *)
  Theorem make_value_refuted : forall c d, entity c = false ->
    make c [] [("value", VDict d)] = (Ok {| m_class := c; m_inits := [d] |}, []).
  Proof.
    intros c d ec. unfold Mk_Model.make. cbn [Mk_Model.call select pop_schema]. rewrite ec. cbn. rewrite sub_refl. unfold init. rewrite ec. reflexivity.
  Qed.
  (** A property called [value], [items], [validate], [context], [session] or [lazyLoading] cannot be set by a keyword. *)
  Theorem make_reserved_refuted : forall c kw k, In k ["lazyLoading"; "items"; "validate"; "context"; "session"] -> pop_schema kw = None -> dget "value" kw = None -> entity c = false ->
    exists o, fst (make c [] kw) = Ok o /\ forall d, In d (m_inits o) -> dget k d = None.
  Proof.
    intros c kw k i0 e ev ec. assert (i : In k reserved) by (right; exact i0). unfold Mk_Model.make. rewrite (call_keywords 1 c kw e ev ec). eexists. split; [reflexivity|]. cbn [m_inits].
    intros d [<-|[]]. unfold given. clear e ev. induction kw as [|[k' v] kw IH]; [reflexivity|]. cbn [filter fst].
    destruct (mem k' reserved) eqn:m; cbn [negb]; [exact IH|]. cbn [dget]. destruct (eq_dec k k') as [<-|_]; [|exact IH].
    apply mem_not_In in m. contradiction.
  Qed.
  (** Every other keyword is data, in the order given. *)
  Theorem make_keywords_data : forall c kw, pop_schema kw = None -> dget "value" kw = None -> entity c = false ->
    exists d, fst (make c [] kw) = Ok {| m_class := c; m_inits := [d] |} /\
      (forall k, ~ In k ["lazyLoading"; "items"; "validate"; "context"; "session"] -> dget k d = dget k kw) /\
      exists f, d = filter f kw.
  Proof.
    intros c kw e ev ec. unfold Mk_Model.make. rewrite (call_keywords 1 c kw e ev ec). exists (given kw). split; [reflexivity|].
    split; [|eexists; reflexivity].
    intros k n. destruct (eq_dec k "value") as [->|nv].
    - rewrite ev. apply dget_None. intros i. unfold given in i. unfold dkeys in i. apply in_map_iff in i. destruct i as ([k0 v] & ek & i). cbn in ek. subst k0. apply filter_In in i. destruct i as [i _].
      apply dget_None in ev. apply ev. unfold dkeys. apply in_map_iff. exists ("value", v). auto.
    - assert (m : mem k reserved = false) by (apply mem_not_In; intros [h|h]; [congruence|contradiction]).
      clear e ev. unfold given. induction kw as [|[k' v] kw IH]; [reflexivity|]. cbn [filter fst].
      destruct (mem k' reserved) eqn:m'; cbn [negb dget].
      + destruct (eq_dec k k') as [<-|_]; [congruence|exact IH].
      + destruct (eq_dec k k') as [<-|_]; [reflexivity|exact IH].
  Qed.
  (** The keywords that name a schema are in the data of the object, name included, when its class is a subclass of the class called. *)
  Theorem make_keywords_last : forall c kw s t k, dget "$schema" kw = Some (VStr s) -> s <> "" -> dget "value" kw = None ->
    entity c = false -> entity k = false -> idc (scope (chars s) (cid c)) = Ok t -> t <> cid c -> load t = Ok k ->
    exists o d, fst (make c [] kw) = Ok o /\ m_data o = Some d /\ dget "$schema" d = (if sub k c then Some (VStr s) else None).
  Proof.
    intros c kw s t k g ne gv ec ek ei nt el. rewrite (make_keywords c kw s t k g ne gv ec ek ei nt el).
    assert (gs : forall d, dget "$schema" (given d) = dget "$schema" d).
    { intros d. unfold given. induction d as [|[k' v] d IH]; [reflexivity|]. cbn [filter fst].
      destruct (eq_dec "$schema" k') as [<-|n]; [replace (mem "$schema" reserved) with false by reflexivity; cbn [negb dget]; destruct (eq_dec _ _); congruence|].
      destruct (mem k' reserved); cbn [negb dget]; destruct (eq_dec "$schema" k'); congruence. }
    destruct (sub k c); eexists _, _; (split; [reflexivity|]); unfold m_data; cbn [m_inits].
    - cbn [rev app]. split; [reflexivity|]. rewrite gs. exact g.
    - cbn [rev app]. split; [reflexivity|]. rewrite gs, dget_ddel. destruct (eq_dec _ _); [reflexivity|congruence].
  Qed.
  (** A name of a schema that is not a text raises; it is gone from the caller's data. *)
  Theorem make_schema_not_text : forall c d v, dget "$schema" d = Some v -> truthy v = true -> (forall s, v <> VStr s) ->
    make c [VDict d] [] = (Err TypeError, [VDict (ddel "$schema" d)]).
  Proof.
    intros c d v g t n. assert (p : pop_schema d = Some (v, ddel "$schema" d)) by (apply pop_schema_spec; auto).
    unfold Mk_Model.make. remember 1 as m eqn:em. cbn [Mk_Model.call select]. rewrite p, dict_no_key.
    replace (if entity c then Ok c else Ok c) with (@Ok nat c) by (destruct (entity c); reflexivity).
    unfold schema_id. destruct v; try reflexivity. destruct (n s eq_refl).
  Qed.
  (** An entity made by keywords gets every keyword but the reserved ones and [primaryKeys]. *)
  Theorem make_entity_keywords : forall c kw, entity c = true -> pop_schema kw = None -> dget "value" kw = None ->
    exists d, fst (make c [] kw) = Ok {| m_class := c; m_inits := [d] |} /\
      forall k v, In (k, v) d <-> In (k, v) kw /\ ~ In k ["primaryKeys"; "value"; "lazyLoading"; "items"; "validate"; "context"; "session"].
  Proof.
    intros c kw ec e ev. unfold Mk_Model.make. cbn [Mk_Model.call select]. rewrite e, ec. cbn [m_class]. rewrite sub_refl.
    unfold init, value_of. rewrite ec, ev. cbn [is_key truthy andb init_data]. eexists. split; [reflexivity|].
    intros k v. rewrite filter_In. cbn [fst]. rewrite negb_true_iff, mem_not_In. 
    assert (hd : forall d : data, In (k, v) (ddel "primaryKeys" d) <-> In (k, v) d /\ k <> "primaryKeys").
    { induction d as [|[k' v'] d IH]; [cbn; tauto|]. cbn [ddel]. destruct (eq_dec "primaryKeys" k') as [<-|nk].
      - rewrite IH. split; [intros [h1 h2]; split; [right; exact h1|exact h2]|]. intros [[h1|h1] h2]; [congruence|auto].
      - cbn [In]. rewrite IH. split; [intros [h|[h1 h2]]; [split; [left; exact h|congruence]|auto]|]. intros [[h1|h1] h2]; auto. }
    rewrite hd. split.
    - intros [[i h] n]. split; [exact i|]. intros [<-|h2]; [congruence|exact (n h2)].
    - intros [i n]. split; [|intros h; apply n; right; exact h]. split; [exact i|]. intros ->. apply n. left. reflexivity.
  Qed.

  (** * entities made from keys *)
  Notation resolve_key := (resolve_key sub session).
  Lemma key_call : forall c v rest kw, entity c = true -> is_key v = true -> make c (v :: rest) kw =
    match resolve_key c (VTup (v :: rest)) with
    | Err e => (Err e, v :: rest)
    | Ok j => if sub (inst_class j) c then
                match init sub entity inst_data dict_of session (inst_class j) (v :: rest) kw with
                | Err e => (Err e, v :: rest)
                | Ok d => (Ok {| m_class := inst_class j; m_inits := [d] |}, v :: rest)
                end
              else (Ok {| m_class := inst_class j; m_inits := [] |}, v :: rest)
    end.
  Proof.
    intros c v rest kw ec ek. unfold Mk_Model.make. cbn [Mk_Model.call]. rewrite ec, ek. destruct (resolve_key c (VTup (v :: rest))) as [j|e]; cbn [rbind]; [|reflexivity].
    assert (sel : select (v :: rest) kw = None).
    { unfold is_key in ek. destruct v; try reflexivity. cbn in ek. rewrite Bool.andb_false_r in ek. discriminate. }
    rewrite sel. cbn [m_class m_inits app]. destruct (sub (inst_class j) c); [|reflexivity]. destruct (init _ _ _ _ _ _ _ _); reflexivity.
  Qed.
  Lemma as_tuple_scalar : forall v k, is_key v = true -> kval_of v = Ok k -> as_tuple v = Ok [v].
  Proof.
    intros v k ik ek. unfold as_tuple. unfold is_key in ik. apply andb_prop in ik. destruct ik as [t _]. rewrite t.
    rewrite array_deserialize_items by reflexivity. cbn [a_default a_min array_class]. rewrite t.
    destruct v; cbn in ek; try discriminate; cbn; reflexivity.
  Qed.
  Lemma as_tuple_args : forall v rest, as_tuple (VTup (v :: rest)) = Ok (v :: rest).
  Proof. intros v rest. unfold as_tuple. cbn [truthy]. rewrite array_deserialize_items by reflexivity. cbn [a_default a_min array_class truthy]. rewrite app_nil_r. reflexivity. Qed.
  Lemma find_kept : forall s c ks j, session_find (map (fun kr => (sub (fst kr) c, snd kr)) s) ks = Ok j <-> Kept sub s c ks j.
  Proof.
    intros s c ks j. rewrite session_resolve_first. unfold repo_contains, resolve_fkey. split.
    - intros (pre & r & post & e & _ & h & g). 
      assert (sp : exists pre' kc post', s = pre' ++ (kc, r) :: post' /\ sub kc c = true /\ map (fun kr => (sub (fst kr) c, snd kr)) pre' = pre).
      { clear g h. revert pre e. induction s as [|[kc r0] s IH]; intros pre e; [destruct pre; discriminate|]. cbn [map fst snd] in e. destruct pre as [|p pre].
        - injection e as e1 e2 e3. subst r0. exists [], kc, s. auto.
        - injection e as e1 e2. destruct (IH pre e2) as (pre' & kc' & post' & -> & h & e3). exists ((kc, r0) :: pre'), kc', post'. split; [reflexivity|].
          split; [exact h|]. cbn [map fst snd]. congruence. }
      destruct sp as (pre' & kc & post' & -> & hs & ep). exists pre', kc, r, post'. split; [reflexivity|]. split; [exact hs|].
      split; [destruct (dget ks (catalog r)); [congruence|discriminate]|]. intros kc' r' i hk.
      assert (i' : In (sub kc' c, r') pre) by (rewrite <- ep; apply in_map_iff; exists (kc', r'); auto).
      specialize (g _ _ i' hk). apply dmem_false in g. apply dget_None. exact g.
    - intros (pre & kc & r & post & -> & hs & g & h). exists (map (fun kr => (sub (fst kr) c, snd kr)) pre), r, (map (fun kr => (sub (fst kr) c, snd kr)) post).
      rewrite map_app. cbn [map fst snd]. rewrite hs. split; [reflexivity|]. rewrite g. split; [apply dmem_In; apply (dget_Some_key _ _ _ g)|]. split; [reflexivity|].
      intros b r' i hb. apply in_map_iff in i. destruct i as ([kc' r0] & e & i). cbn in e. injection e as <- <-. apply dmem_false. apply dget_None. exact (h kc' r0 i hb).
  Qed.
  Lemma kept_resolve : forall s c v k j, session = Some s -> is_key v = true -> kval_of v = Ok k ->
    (resolve_key c (VTup [v]) = Ok j <-> Kept sub s c [k] j) /\ (resolve_key c v = Ok j <-> Kept sub s c [k] j).
  Proof.
    intros s c v k j ss ik ek. unfold Mk_Model.resolve_key. rewrite ss. unfold session_resolve.
    rewrite as_tuple_args, (as_tuple_scalar v k ik ek). cbn [rbind kvals_of]. rewrite ek. cbn [rbind]. split; apply find_kept.
  Qed.
  (** Calling an entity class with a key makes an object of the class of the instance kept under the key. It has the data of the
      instance that is kept under the key when looked for with the class just found. *)
  Theorem entity_by_key : forall s c v k o, session = Some s -> entity c = true -> (forall k, sub k c = true -> entity k = true) ->
    is_key v = true -> kval_of v = Ok k ->
    (fst (make c [v] []) = Ok o <-> exists j, Kept sub s c [k] j /\
       (if sub (inst_class j) c then exists j', Kept sub s (inst_class j) [k] j' /\ o = {| m_class := inst_class j; m_inits := [inst_data j'] |}
        else o = {| m_class := inst_class j; m_inits := [] |})).
  Proof.
    intros s c v k o ss ec he ik ek. rewrite key_call by assumption. pose proof (fun j => proj1 (kept_resolve s c v k j ss ik ek)) as hr.
    destruct (resolve_key c (VTup [v])) as [j|e] eqn:er.
    - assert (uniq : forall j', Kept sub s c [k] j' -> j' = j) by (intros j' h; apply hr in h; congruence).
      pose proof (proj1 (hr j) eq_refl) as kj. destruct (sub (inst_class j) c) eqn:es.
      + unfold init, value_of. rewrite (he _ es), ik. pose proof (fun j' => proj2 (kept_resolve s (inst_class j) v k j' ss ik ek)) as hr2.
        destruct (resolve_key (inst_class j) v) as [j2|e]; cbn [rbind fst].
        * split; [intros h; injection h as <-; exists j; rewrite es; split; [exact kj|]; exists j2; split; [apply hr2; reflexivity|reflexivity]|].
          intros (j0 & k0 & h). pose proof (uniq _ k0) as ->. rewrite es in h. destruct h as (j' & kj' & ->). apply hr2 in kj'. congruence.
        * split; [discriminate|]. intros (j0 & k0 & h). pose proof (uniq _ k0) as ->. rewrite es in h. destruct h as (j' & kj' & _). apply hr2 in kj'. discriminate.
      + cbn [fst]. split; [intros h; injection h as <-; exists j; rewrite es; auto|]. intros (j0 & k0 & h). pose proof (uniq _ k0) as ->. rewrite es in h. congruence.
    - split; [discriminate|]. intros (j0 & k0 & _). apply hr in k0. discriminate.
  Qed.
  (** Without a session in the context it raises. *)
  Theorem entity_no_session : forall c v rest kw, session = None -> entity c = true -> is_key v = true -> fst (make c (v :: rest) kw) = Err AttributeError.
  Proof. intros c v rest kw es ec ek. rewrite key_call by assumption. unfold Mk_Model.resolve_key. rewrite es. reflexivity. Qed.

  (** An instance of a subclass, kept in the repository of its base class, cannot be made from its key. *)
  Theorem entity_subclass_refuted : forall s c v k j, session = Some s -> entity c = true -> (forall k, sub k c = true -> entity k = true) ->
    is_key v = true -> kval_of v = Ok k -> Kept sub s c [k] j -> sub (inst_class j) c = true ->
    (forall kc r, In (kc, r) s -> sub kc (inst_class j) = false) -> is_ok (fst (make c [v] [])) = false.
  Proof.
    intros s c v k j ss ec he ik ek kj es hs. destruct (fst (make c [v] [])) as [o|] eqn:em; [exfalso|reflexivity].
    apply (entity_by_key s c v k o ss ec he ik ek) in em. destruct em as (j0 & k0 & h).
    assert (j0 = j) as -> by (apply (kept_resolve s c v k j0 ss ik ek) in k0; apply (kept_resolve s c v k j ss ik ek) in kj; congruence).
    rewrite es in h. destruct h as (j' & (pre & kc & r & post & -> & h1 & _) & _). rewrite (hs kc r) in h1; [discriminate|]. apply in_or_app. right. left. reflexivity.
  Qed.

  (** Entities with several primary keys cannot be made from their keys, in whatever way these are given. *)
  Lemma kvals_length : forall vs ks, kvals_of vs = Ok ks -> length ks = length vs.
  Proof.
    induction vs as [|v vs IH]; intros ks e; cbn [kvals_of] in e; [injection e as <-; reflexivity|].
    destruct (kval_of v); cbn [rbind] in e; [|discriminate]. destruct (kvals_of vs) as [ks'|]; cbn [rbind] in e; [|discriminate].
    injection e as <-. cbn [length]. rewrite (IH ks' eq_refl). reflexivity.
  Qed.
  Lemma find_key : forall rs ks j, session_find rs ks = Ok j -> exists b r, In (b, r) rs /\ repo_contains r ks = true.
  Proof. intros rs ks j e. apply session_resolve_first in e. destruct e as (pre & r & post & -> & h & _). exists true, r. split; [apply in_or_app; right; left; reflexivity|exact h]. Qed.
  Lemma resolve_length : forall c key j n s, session = Some s -> (forall kc r ks, In (kc, r) s -> repo_contains r ks = true -> length ks <> n) ->
    resolve_key c key = Ok j -> forall vs, as_tuple key = Ok vs -> length vs <> n.
  Proof.
    intros c key j n s ss hs e vs ev. unfold Mk_Model.resolve_key in e. rewrite ss in e. unfold session_resolve in e. rewrite ev in e. cbn [rbind] in e.
    destruct (kvals_of vs) as [ks|] eqn:ek; cbn [rbind] in e; [|discriminate]. destruct (find_key _ _ _ e) as (b & r & i & h).
    apply in_map_iff in i. destruct i as ([kc r'] & e2 & i). cbn in e2. injection e2 as <- <-. rewrite <- (kvals_length vs ks ek). exact (hs kc r' ks i h).
  Qed.
  Theorem entity_composite_refuted : forall c v rest kw s, session = Some s -> (forall k, sub k c = true -> entity k = true) ->
    (forall kc r ks, In (kc, r) s -> repo_contains r ks = true -> length ks <> 1) ->
    (forall j, sub (inst_class j) c = true) -> entity c = true -> is_key v = true -> is_ok (fst (make c (v :: rest) kw)) = false.
  Proof.
    intros c v rest kw s ss he hs hi ec ek. rewrite key_call by assumption.
    destruct (resolve_key c (VTup (v :: rest))) as [j|e] eqn:er; [|reflexivity]. rewrite (hi j). unfold init, value_of. rewrite (he _ (hi j)), ek.
    destruct (resolve_key (inst_class j) v) as [j'|e] eqn:er'; cbn [rbind]; [exfalso|reflexivity].
    assert (exists k, kval_of v = Ok k) as (k & hk).
    { unfold Mk_Model.resolve_key in er. rewrite ss in er. unfold session_resolve in er. rewrite as_tuple_args in er. cbn [rbind kvals_of] in er.
      destruct (kval_of v) as [k|]; [eauto|discriminate]. }
    exact (resolve_length _ _ _ 1 s ss hs er' _ (as_tuple_scalar v k ek hk) eq_refl).
  Qed.
  (** A key that is 0, False or an empty text is not looked up. *)
  Theorem entity_falsy_refuted : forall c v kw, entity c = true -> truthy v = false -> v <> VNone -> is_mapping v = false ->
    make c [v] kw = match dict_of v with Ok d => (Ok {| m_class := c; m_inits := [d] |}, [v]) | Err e => (Err e, [v]) end.
  Proof.
    intros c v kw ec t nn nm. assert (k : is_key v = false) by (unfold is_key; rewrite t; reflexivity).
    assert (sel : select [v] kw = None) by (destruct v; try reflexivity; discriminate).
    unfold Mk_Model.make. cbn [Mk_Model.call]. rewrite ec, k, sel. cbn [m_class]. rewrite sub_refl. unfold init, value_of. rewrite ec, k.
    destruct v; try congruence; try discriminate; cbn [init_data]; destruct (dict_of _); reflexivity.
  Qed.
End S.

(** * cases: class 1 extends class 0, class 2 is unrelated; class 4 extends the entity class 3 *)
Definition demo_sub (k c : nat) : bool := beq k c || (beq k 1 && beq c 0) || (beq k 4 && beq c 3).
Definition demo_entity (c : nat) : bool := Nat.leb 3 c.
Definition demo_cid (c : nat) : list ascii := chars (match c with 0 => "x#/base" | 1 => "x#/sub" | 2 => "x#/other" | 3 => "x#/entity" | _ => "x#/subentity" end).
Definition demo_load (t : list ascii) : res nat :=
  if beq t (chars "x#/sub") then Ok 1 else if beq t (chars "x#/other") then Ok 2 else Err KeyError.
Definition demo_make ic idat s := make demo_sub demo_entity demo_cid (fun t => Ok t) demo_load ic idat
  (fun v => match v with VStr EmptyString => Ok [] | _ => Err TypeError end) s.
Definition demo_repo (ks : list kval) (j : nat) : repo := {| objs := [(j, ks)]; catalog := [(ks, j)]; content := [j] |}.
Example make_schema_case : demo_make (fun _ => 0) (fun _ => []) None 0 [VDict [("$schema", VStr "#/sub"); ("a", VInt 1)]] [] =
  (Ok {| m_class := 1; m_inits := [[("a", VInt 1)]; [("a", VInt 1)]] |}, [VDict [("a", VInt 1)]]) /\
  demo_make (fun _ => 0) (fun _ => []) None 0 [VDict [("$schema", VStr "#/other"); ("a", VInt 1)]] [] =
  (Ok {| m_class := 2; m_inits := [[("a", VInt 1)]] |}, [VDict [("a", VInt 1)]]) /\
  demo_make (fun _ => 0) (fun _ => []) None 0 [VDict [("a", VInt 1)]] [] = (Ok {| m_class := 0; m_inits := [[("a", VInt 1)]] |}, [VDict [("a", VInt 1)]]).
Proof. repeat split. Qed.
(** two instances under one key: the object has the class of the first and the data of the second *)
Example entity_case :
  fst (demo_make (fun j => if Nat.eqb j 7 then 3 else 4) (fun j => [("id", VInt (Z.of_nat j))]) (Some [(3, demo_repo [Repo_Model.KInt 7] 7)]) 3 [VInt 7] []) =
    Ok {| m_class := 3; m_inits := [[("id", VInt 7)]] |} /\
  fst (demo_make (fun j => 4) (fun j => [("id", VInt (Z.of_nat j))]) (Some [(3, demo_repo [Repo_Model.KInt 7] 7); (4, demo_repo [Repo_Model.KInt 7] 8)]) 3 [VInt 7] []) =
    Ok {| m_class := 4; m_inits := [[("id", VInt 8)]] |} /\
  is_ok (fst (demo_make (fun j => 4) (fun j => []) (Some [(3, demo_repo [Repo_Model.KInt 7] 7)]) 3 [VInt 7] [])) = false /\
  is_ok (fst (demo_make (fun j => 3) (fun j => []) (Some [(3, demo_repo [Repo_Model.KInt 1; Repo_Model.KInt 2] 7)]) 3 [VInt 1; VInt 2] [])) = false.
Proof. repeat split. Qed.

Print Assumptions make_plain.
Print Assumptions make_own_schema.
Print Assumptions make_schema.
Print Assumptions make_unknown_schema.
Print Assumptions make_instance_refuted.
Print Assumptions make_again_refuted.
Print Assumptions make_keywords.
Print Assumptions make_value_refuted.
Print Assumptions make_reserved_refuted.
Print Assumptions make_keywords_data.
Print Assumptions make_keywords_last.
Print Assumptions make_schema_not_text.
Print Assumptions make_entity_keywords.
Print Assumptions entity_by_key.
Print Assumptions entity_no_session.
Print Assumptions entity_subclass_refuted.
Print Assumptions entity_composite_refuted.
Print Assumptions entity_falsy_refuted.
