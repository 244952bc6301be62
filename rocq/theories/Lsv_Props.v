(** C70. Loaders, savers and repositories. *)
From Verif Require Import Base PyVal Bracket_Model Types_Model Fkey_Model Types_Proofs Types_Props Op_Props Lsv_Model Lsv_Spec.
Local Open Scope list_scope.

Lemma each_spec {A B} (f : A -> res B) l : forall ys, each f l = Ok ys <-> Forall2 (fun x y => f x = Ok y) l ys.
Proof.
  induction l as [|x l IH]; intros ys; cbn [each].
  - split; [intros e; injection e as <-; constructor|inversion 1; reflexivity].
  - destruct (f x) as [y|e] eqn:ef; cbn [rbind].
    + destruct (each f l) as [zs|e] eqn:el; cbn [rbind].
      * split; [intros h; injection h as <-; constructor; [exact ef|apply IH; reflexivity]|].
        inversion 1; subst. apply IH in H4. congruence.
      * split; [discriminate|]. inversion 1; subst. apply IH in H4. discriminate.
    + split; [discriminate|]. inversion 1; subst. congruence.
Qed.
Lemma each_fails {A B} (f : A -> res B) l : is_ok (each f l) = false <-> exists x, In x l /\ is_ok (f x) = false.
Proof.
  induction l as [|x l IH]; cbn [each]; [split; [discriminate|intros (x & [] & _)]|].
  destruct (f x) as [y|e] eqn:ef; cbn [rbind].
  - destruct (each f l) as [zs|e] eqn:el; cbn [rbind is_ok] in *.
    + split; [discriminate|]. intros (z & [<-|i] & h); [rewrite ef in h; discriminate|]. apply IH. eauto.
    + split; [|reflexivity]. intros _. destruct (proj1 IH eq_refl) as (z & i & h). exists z. split; [right; exact i|exact h].
  - split; [|reflexivity]. intros _. exists x. split; [left; reflexivity|rewrite ef; reflexivity].
Qed.

Lemma holds_array v l : Holds v l -> array_deserialize array_class split_opts v = Ok l.
Proof.
  intros h. rewrite array_deserialize_items by reflexivity. cbn [a_default a_min array_class].
  destruct h as [l|l|v t|v t n1 n2 n3].
  - destruct l; [reflexivity|]. cbn [truthy]. rewrite app_nil_r. reflexivity.
  - destruct l; [reflexivity|]. cbn [truthy]. rewrite app_nil_r. reflexivity.
  - rewrite t. reflexivity.
  - rewrite t. destruct v; try reflexivity; exfalso; [eapply n3|eapply n1|eapply n2]; reflexivity.
Qed.

Section S.
  Variable deser : pyval -> res pyval.
  Variable inst : option (pyval -> res pyval).
  Variable ser : pyval -> res pyval.
  Variable members : nat -> res (list pyval).

  (** Loading several values gives exactly one loaded value for each value held, in their order, or fails when one of
      them cannot be loaded. *)
  Lemma loads_to_steps v w : LoadsTo deser inst v w <-> exists d, deser v = Ok d /\ one_inst inst d = Ok w.
  Proof.
    unfold one_inst. split.
    - intros [e d|f d e d' h]; [exists w; rewrite e; auto|exists d; rewrite e; auto].
    - intros (d & e & h). destruct inst as [f|]; [eapply L_class; eauto|]. injection h as <-. apply L_plain; auto.
  Qed.
  Theorem load_many : forall v l, Holds v l -> forall r,
    load deser inst true true v = Ok r <-> exists ws, r = VList ws /\ Forall2 (LoadsTo deser inst) l ws.
  Proof.
    intros v l h r. unfold load. rewrite (holds_array v l h). cbn [rbind].
    destruct (each (one_deser deser true) l) as [ds|e] eqn:ed; cbn [rbind].
    - pose proof (proj1 (each_spec _ _ _) ed) as fd. destruct (each (one_inst inst) ds) as [os|e] eqn:eo; cbn [rbind].
      + pose proof (proj1 (each_spec _ _ _) eo) as fo. split.
        * intros e. injection e as <-. exists os. split; [reflexivity|]. clear ed eo h. revert os fo.
          induction fd as [|x d l ds hx fd IH]; intros os fo; inversion fo; subst; constructor; [|auto]. apply loads_to_steps. eauto.
        * intros (ws & -> & fw). f_equal. f_equal. clear ed eo h. revert os ws fo fw.
          induction fd as [|x d l ds hx fd IH]; intros os ws fo fw; inversion fo; inversion fw; subst; [reflexivity|].
          f_equal; [|eauto]. apply loads_to_steps in H6. destruct H6 as (d' & e1 & e2). cbn [one_deser] in hx. congruence.
      + split; [discriminate|]. intros (ws & -> & fw). exfalso.
        assert (hf : is_ok (each (one_inst inst) ds) = false) by (rewrite eo; reflexivity). apply each_fails in hf. destruct hf as (d & i & hd).
        clear eo ed h e. revert ws fw i. induction fd as [|x d0 l ds hx fd IH]; intros ws fw i; inversion fw; subst; [destruct i|].
        destruct i as [->|i]; [|eauto]. apply loads_to_steps in H1. destruct H1 as (d' & e1 & e2). cbn [one_deser] in hx. rewrite hx in e1. injection e1 as <-.
        rewrite e2 in hd. discriminate.
    - split; [discriminate|]. intros (ws & -> & fw). exfalso.
      assert (hf : is_ok (each (one_deser deser true) l) = false) by (rewrite ed; reflexivity). apply each_fails in hf. destruct hf as (x & i & hx).
      clear ed h e. revert ws fw i. induction l as [|y l IH]; intros ws fw i; inversion fw; subst; [destruct i|].
      destruct i as [->|i]; [|eauto]. apply loads_to_steps in H1. destruct H1 as (d' & e1 & e2). cbn [one_deser] in hx. rewrite e1 in hx. discriminate.
  Qed.
  (** A comma-separated text holds its trimmed parts. *)
  Theorem load_text : forall s, s <> EmptyString -> exists l, array_deserialize array_class split_opts (VStr s) = Ok l /\
    l = map (fun w => VStr (unchars (strip whitespace w))) (split_on [","%char] (chars s)) /\
    load deser inst true true (VStr s) = load deser inst true true (VList l).
  Proof.
    intros s ne. assert (e : array_deserialize array_class split_opts (VStr s) = Ok (map (fun w => VStr (unchars (strip whitespace w))) (split_on [","%char] (chars s)))).
    { rewrite array_deserialize_items by reflexivity. cbn [a_default a_min array_class truthy]. destruct s; [congruence|]. unfold beq. destruct (eq_dec _ _) as [h|_]; [discriminate h|]. cbn. rewrite app_nil_r. reflexivity. }
    eexists. split; [exact e|]. split; [reflexivity|]. unfold load. rewrite e.
    rewrite (array_deserialize_idempotent array_class split_opts split_opts (VStr s) _ eq_refl e). reflexivity.
  Qed.
  Theorem load_one : forall v w, load deser inst false true v = Ok w <-> LoadsTo deser inst v w.
  Proof.
    intros v w. rewrite loads_to_steps. unfold load. cbn [one_deser]. destruct (deser v) as [d|e]; cbn [rbind].
    - split; [eauto|]. intros (d' & e & h). congruence.
    - split; [discriminate|]. intros (d' & e' & _). discriminate.
  Qed.
  (** Without deserialisation the values go to the class as they are. *)
  Theorem load_raw : forall v f, inst = Some f -> load deser inst false false v = f v.
  Proof. intros v f e. unfold load, one_deser, one_inst. rewrite e. reflexivity. Qed.

  (** Calling a loader, a saver or a resolver instead of its method never gives a result. *)
  Theorem call_refuted : forall many d v,
    is_ok (loader_call deser inst many d v) = false /\ is_ok (saver_call deser inst ser d many d v) = false /\
    (forall r, load deser inst many d v = Ok r -> loader_call deser inst many d v = Err TypeError) /\
    (forall conv target, is_ok (resolver_call conv target d v) = false).
  Proof.
    intros many d v. unfold loader_call, saver_call, resolver_call, raise_value.
    destruct (load deser inst many d v), (save deser inst ser false many d v); repeat split; intros; try congruence; try reflexivity;
      destruct (resolve conv target d v); reflexivity.
  Qed.

  (** * repositories *)
  (** what a commit adds *)
  Definition saved (c : commit_op) : res pyval := if c_save c then save deser inst ser (c_load c) (c_many c) (c_serialize c) (c_value c) else Ok (c_value c).
  Definition added (c : commit_op) : list pyval :=
    match saved c with Ok v => match elements members v with Ok vs => vs | Err _ => [] end | Err _ => [] end.
  Lemma many_content : forall cs l, commits deser inst ser members {| r_many := true; r_content := VList l |} cs
    = {| r_many := true; r_content := VList (l ++ flat_map added cs) |}.
  Proof.
    induction cs as [|c cs IH]; intros l; cbn [commits flat_map]; [rewrite app_nil_r; reflexivity|].
    assert (e : snd (commit deser inst ser members {| r_many := true; r_content := VList l |} c) = {| r_many := true; r_content := VList (l ++ added c) |}).
    { unfold commit, added. fold (saved c). destruct (saved c) as [v|ex]; cbn [r_many r_content snd]; [|rewrite app_nil_r; reflexivity].
      destruct (elements members v); cbn [snd]; [reflexivity|rewrite app_nil_r; reflexivity]. }
    rewrite e, IH, app_assoc. reflexivity.
  Qed.
  (** A repository of many holds, in the order of the commits, the elements of what was saved; a commit that raises
      adds nothing. *)
  Theorem repository_many : forall cs, r_content (commits deser inst ser members (new_repository true) cs) = VList (flat_map added cs) /\
    forall c, In c cs -> is_ok (fst (commit deser inst ser members {| r_many := true; r_content := VList [] |} c)) = false -> added c = [].
  Proof.
    intros cs. split; [unfold new_repository; rewrite many_content; reflexivity|]. intros c _ h. unfold commit in h. fold (saved c) in h. unfold added.
    destruct (saved c) as [v|]; [|reflexivity]. cbn [r_many r_content] in h. destruct (elements members v); [discriminate|reflexivity].
  Qed.
  (** A commit returns the content it leaves, or raises and leaves the repository as it was. *)
  Theorem commit_effect : forall r c, match commit deser inst ser members r c with
    | (Ok v, r') => v = r_content r' /\ r_many r' = r_many r /\ is_ok (saved c) = true
    | (Err e, r') => r' = r end.
  Proof.
    intros [m v0] c. unfold commit. fold (saved c). destruct (saved c) as [v|e]; [|reflexivity]. cbn [r_many r_content]. destruct m; [|auto].
    destruct v0, (elements members v); auto.
  Qed.
  (** A repository of one holds the last value that was saved. *)
  Theorem repository_one : forall cs, r_content (commits deser inst ser members (new_repository false) cs) =
    match find (fun c => is_ok (saved c)) (rev cs) with Some c => match saved c with Ok v => v | Err _ => VNone end | None => VNone end.
  Proof.
    intros cs. unfold new_repository. generalize VNone at 1 3 as v0. induction cs as [|c cs IH]; intros v0; [reflexivity|].
    cbn [commits rev].
    assert (fa : forall (p : commit_op -> bool) l x, find p (l ++ [x]) = match find p l with Some y => Some y | None => if p x then Some x else None end).
    { intros p l x. induction l as [|y l IHl]; cbn; [destruct (p x); reflexivity|]. destruct (p y); [reflexivity|exact IHl]. }
    assert (e : snd (commit deser inst ser members {| r_many := false; r_content := v0 |} c) =
                {| r_many := false; r_content := match saved c with Ok v => v | Err _ => v0 end |}).
    { unfold commit. fold (saved c). destruct (saved c); reflexivity. }
    rewrite e, IH, fa. destruct (find _ (rev cs)); [reflexivity|]. destruct (saved c) eqn:es; cbn [is_ok]; [rewrite es|]; reflexivity.
  Qed.
  (** Committing a mapping, which is what a saved object is, adds its keys and not the object. *)
  Theorem repository_mapping_refuted : forall c d, saved c = Ok (VDict d) -> added c = map (fun kv => VStr (fst kv)) d.
  Proof. intros c d e. unfold added. rewrite e. reflexivity. Qed.
  (** Membership in a repository of many is equality with one of the elements; in an empty repository of one it raises. *)
  Theorem repository_membership : forall eqv cs item,
    (repository_contains members eqv (commits deser inst ser members (new_repository true) cs) item = Ok true <->
       exists x, In x (flat_map added cs) /\ eqv item x = true) /\
    repository_contains members eqv (new_repository false) item = Err TypeError.
  Proof.
    intros eqv cs item. split; [|reflexivity]. unfold repository_contains, new_repository. rewrite many_content. cbn [r_content app elements rbind].
    rewrite <- existsb_exists. destruct (existsb (eqv item) (flat_map added cs)); split; congruence.
  Qed.
  (** What was dumped from a repository of many can be loaded again, element by element, when each element can. *)
  Theorem dump_load : forall l ws r, r_content r = VList l -> ser (VList l) = Ok (VList ws) -> Forall2 (fun x w => LoadsTo deser inst w x) l ws ->
    exists v, dump deser inst ser r = Ok v /\ load deser inst true true v = Ok (VList l).
  Proof.
    intros l ws r er es f. exists (VList ws). split; [unfold dump, save; rewrite er; exact es|].
    apply (load_many (VList ws) ws (H_list ws)). exists l. split; [reflexivity|]. clear es er. induction f; constructor; assumption.
  Qed.
  (** Saving loads the value first when asked to, and serialises it unless told not to. *)
  Theorem save_steps : forall v,
    (forall w, save deser inst ser true false true v = Ok w <-> exists x, LoadsTo deser inst v x /\ ser x = Ok w) /\
    (forall x, save deser inst ser true false false v = Ok x <-> LoadsTo deser inst v x) /\
    (forall l w, Holds v l -> save deser inst ser true true true v = Ok w <-> exists ws, Forall2 (LoadsTo deser inst) l ws /\ ser (VList ws) = Ok w) /\
    (forall many, save deser inst ser false many true v = ser v /\ save deser inst ser false many false v = Ok v).
  Proof.
    intros v. unfold save. split; [|split; [|split]].
    - intros w. pose proof (load_one v) as h. destruct (load deser inst false true v) as [x|e]; cbn [rbind].
      + split; [intros es; exists x; split; [apply h; reflexivity|exact es]|]. intros (y & hy & es). apply h in hy. congruence.
      + split; [discriminate|]. intros (y & hy & _). apply h in hy. discriminate.
    - intros x. rewrite <- load_one. destruct (load deser inst false true v); reflexivity.
    - intros l w hl. pose proof (load_many v l hl) as h. destruct (load deser inst true true v) as [x|e]; cbn [rbind].
      + destruct (proj1 (h x) eq_refl) as (ws & -> & f). split; [intros es; eauto|]. intros (ws' & f' & es).
        assert (e : Ok (VList ws) = Ok (VList ws')) by (apply h; eauto). injection e as <-. exact es.
      + split; [discriminate|]. intros (ws' & f' & es). assert (h' : Err e = Ok (VList ws')) by (apply h; eauto). discriminate.
    - intros many. split; reflexivity.
  Qed.
  (** A repository of one that holds a text contains its parts; asking whether it contains anything else raises. *)
  Theorem repository_text_membership : forall eqv r s item, r_content r = VStr s ->
    (forall t, item = VStr t -> repository_contains members eqv r item = Ok true <-> exists a b, list_ascii_of_string s = a ++ list_ascii_of_string t ++ b) /\
    ((forall t, item <> VStr t) -> repository_contains members eqv r item = Err TypeError).
  Proof.
    intros eqv r s item er. unfold repository_contains. rewrite er. split.
    - intros t ->. split.
      + intros e. injection e as e. apply contains_sub_spec. exact e.
      + intros h. f_equal. apply contains_sub_spec. exact h.
    - intros n. destruct item; try reflexivity. destruct (n s0 eq_refl).
  Qed.
End S.

(** Resolving converts once when asked to, and not otherwise. *)
Theorem resolve_steps : forall conv target v, resolve conv target true v = (do w <- conv v; target w) /\ resolve conv target false v = target v /\
  forall e, (target v = Err e -> resolver_call conv target false v = Err e) /\ (conv v = Err e -> resolver_call conv target true v = Err e).
Proof.
  intros conv target v. unfold resolver_call, resolve. repeat split.
  - intros h. cbn [rbind]. rewrite h. reflexivity.
  - intros h. rewrite h. reflexivity.
Qed.

(** Transforming with the method converts twice: with a conversion that is not idempotent the target gets another value
    than when the transformer is called. *)
Theorem transform_twice : forall conv target v, transform conv target true v = (do w <- conv v; do w' <- conv w; target w') /\
  (forall w, conv v = Ok w -> conv w = Ok w -> transform conv target true v = transform_call conv target true v) /\
  transform conv target false v = target v.
Proof.
  intros conv target v. unfold transform, transform_call, transform0. destruct (conv v) as [w|e]; cbn [rbind]; [|repeat split; congruence].
  repeat split. intros w0 e1 e2. injection e1 as <-. rewrite e2. reflexivity.
Qed.
Theorem transform_refuted : exists conv target v, transform conv target true v <> transform_call conv target true v.
Proof. exists (fun v => match v with VInt z => Ok (VInt (z + 1)) | _ => Ok v end), (fun v => Ok v), (VInt 1). vm_compute. discriminate. Qed.

(** * cases *)
Definition person (v : pyval) : res pyval := match v with VDict d => Ok (VDict (d ++ [("$schema"%string, VStr "person")])) | _ => Err TypeError end.
Example load_many_case : load (fun v => Ok v) (Some person) true true (VList [VDict [("name"%string, VStr "a")]; VDict []]) =
  Ok (VList [VDict [("name"%string, VStr "a"); ("$schema"%string, VStr "person")]; VDict [("$schema"%string, VStr "person")]]) /\
  is_ok (load (fun v => Ok v) (Some person) true true (VList [VDict []; VInt 1])) = false /\
  load (fun v => Ok v) None true true (VStr "a, b") = Ok (VList [VStr "a"; VStr "b"]).
Proof. repeat split. Qed.
Example repository_case :
  let c v := {| c_value := v; c_save := true; c_load := false; c_many := false; c_serialize := true |} in
  r_content (commits (fun v => Ok v) None (fun v => Ok v) (fun _ => Err TypeError) (new_repository true)
    [c (VList [VInt 1; VInt 2]); c (VInt 3); c (VDict [("name"%string, VStr "a"); ("age"%string, VInt 3)]); c (VList [VInt 4])])
  = VList [VInt 1; VInt 2; VStr "name"; VStr "age"; VInt 4].
Proof. reflexivity. Qed.
Example dump_case : exists v, dump (fun v => Ok v) None (fun v => Ok v) {| r_many := true; r_content := VList [VInt 1; VStr "a"] |} = Ok v /\
  load (fun v => Ok v) None true true v = Ok (VList [VInt 1; VStr "a"]).
Proof. apply (dump_load (fun v => Ok v) None (fun v => Ok v) [VInt 1; VStr "a"] [VInt 1; VStr "a"]); try reflexivity. repeat constructor. Qed.

Print Assumptions load_many.
Print Assumptions load_text.
Print Assumptions load_one.
Print Assumptions load_raw.
Print Assumptions call_refuted.
Print Assumptions repository_many.
Print Assumptions commit_effect.
Print Assumptions repository_one.
Print Assumptions repository_mapping_refuted.
Print Assumptions repository_membership.
Print Assumptions dump_load.
Print Assumptions save_steps.
Print Assumptions repository_text_membership.
Print Assumptions resolve_steps.
Print Assumptions transform_twice.
Print Assumptions transform_refuted.
