(** C01-C04: chain maps and contexts. *)
From Coq Require Import Permutation.
From Verif Require Import ChainMap_Model ChainMap_Spec ChainMap_Proofs.

(** C01 *)
Theorem chainmap_first_map_wins : forall (K V : Type) (EK : EqDec K) (m : cmap K V) (k : K), cm_wf m ->
  (forall v, cm_getitem m k = Ok v <-> Gives k v m) /\
  (cm_getitem m k = Err KeyError <-> ~ HasKey k m) /\
  (cm_contains k m = true <-> exists v, cm_getitem m k = Ok v).
Proof. intros K V EK m k wf. exact (cm_getitem_spec m k wf). Qed.
Print Assumptions chainmap_first_map_wins.

Definition ex_chain : cmap string nat :=
  Chain [Plain [("a", 1)]; Chain [Plain [("b", 2); ("a", 3)]; Plain []]; Plain [("b", 4); ("c", 5)]]%string.
Example chainmap_first_map_wins_ex :
  cm_wf ex_chain /\ cm_getitem ex_chain "a"%string = Ok 1 /\ cm_getitem ex_chain "b"%string = Ok 2 /\
  cm_getitem ex_chain "c"%string = Ok 5 /\ cm_getitem ex_chain "d"%string = Err KeyError.
Proof. repeat split; try reflexivity; unfold dwf; simpl; repeat constructor; simpl; intuition discriminate. Qed.

(** C02 *)
Theorem chainmap_iter_keys_once : forall (K V : Type) (EK : EqDec K) (m : cmap K V), cm_wf m ->
  NoDup (cm_iter m) /\ (forall k, In k (cm_iter m) <-> HasKey k m) /\ cm_len m = length (cm_iter m).
Proof. intros K V EK m wf. exact (cm_iter_spec m wf). Qed.
Print Assumptions chainmap_iter_keys_once.

Theorem chainmap_iter_order : forall (K V : Type) (EK : EqDec K) (ms : list (cmap K V)),
  FirstAppearance (flat_map (map fst) (cm_flatten (Chain ms))) (cm_iter (Chain ms)) /\
  FirstAppearance (flat_map (map fst) (rev (cm_flatten (Chain ms)))) (cm_reversed_keys (Chain ms)).
Proof. intros K V EK ms. exact (conj (cm_iter_first_appearance ms) (cm_reversed_first_appearance ms)). Qed.
Print Assumptions chainmap_iter_order.

Theorem chainmap_reversed_keys_permutation : forall (K V : Type) (EK : EqDec K) (m : cmap K V), cm_wf m ->
  NoDup (cm_reversed_keys m) /\ Permutation (cm_reversed_keys m) (cm_iter m).
Proof. intros K V EK m wf. exact (conj (cm_rev_NoDup m wf) (cm_reversed_perm m wf)). Qed.
Print Assumptions chainmap_reversed_keys_permutation.

Theorem chainmap_merged : forall (K V : Type) (EK : EqDec K) (ord : list K -> list K),
  (forall l, Permutation (ord l) l) -> forall m : cmap K V, cm_wf m ->
  NoDup (map fst (cm_merged ord m)) /\ (forall k v, In (k, v) (cm_merged ord m) <-> Gives k v m).
Proof. intros K V EK ord h m wf. exact (cm_merged_spec ord h m wf). Qed.
Print Assumptions chainmap_merged.

Example chainmap_iter_ex : cm_iter ex_chain = ["a"; "b"; "c"]%string /\
  cm_reversed_keys ex_chain = ["b"; "c"; "a"]%string /\ cm_len ex_chain = 3 /\
  cm_merged (@rev string) ex_chain = [("a", 1); ("b", 2); ("c", 5)]%string.
Proof. repeat split; vm_compute; reflexivity. Qed.

(** C03 *)
Theorem chainmap_flatten_lookup : forall (K V : Type) (EK : EqDec K) (m : cmap K V) (k : K),
  cm_getitem (Chain (map Plain (cm_flatten m))) k = cm_getitem m k.
Proof. intros K V EK m k. exact (cm_flatten_getitem m k). Qed.
Print Assumptions chainmap_flatten_lookup.

Theorem context_flattened_fresh : forall (K V : Type) (EK : EqDec K) (os : list (@ctx_op K V)) (h : @heap K V),
  (forall c, In c h -> c_flat c = None) ->
  (forall o r, In o os -> ~ targets o r) ->
  forall r l, snd (ctx_step (ctx_run h os) (Flattened r)) = OFlat l ->
  forall k, Some (cm_getitem (Chain (map Plain l)) k) = ctx_value (ctx_run h os) r k.
Proof. intros K V EK os h. exact (flattened_fresh os h). Qed.
Print Assumptions context_flattened_fresh.

(** Reading [maps_flattened], then prepending a map: the flat list misses it. *)
Theorem context_flattened_stale_refuted : exists (os : list (@ctx_op string nat)) (h : @heap string nat) r l k,
  (forall c, In c h -> c_flat c = None) /\
  snd (ctx_step (ctx_run h os) (Flattened r)) = OFlat l /\
  Some (cm_getitem (Chain (map Plain l)) k) <> ctx_value (ctx_run h os) r k.
Proof.
  exists [Flattened 0; Prepend 0 (Plain [("x", 2)]%string)], [{| c_maps := [Plain [("x", 1)]%string]; c_flat := None |}],
         0, [[("x", 1)]%string], "x"%string.
  split; [|split; [vm_compute; reflexivity|vm_compute; congruence]]. intros c [<-|[]]. reflexivity.
Qed.
Print Assumptions context_flattened_stale_refuted.

(** C04 *)
Theorem context_child_lookup : forall (K V : Type) (EK : EqDec K) (h : @heap K V) r ps loc h' r' k,
  ctx_step h (CreateChild r ps loc) = (h', ORef r') ->
  ctx_value h' r' k =
    Some (match dget k loc with Some v => Ok v | None =>
          match cm_lookup k (Chain ps) with Some v => Ok v | None =>
          match ctx_value h r k with Some x => x | None => Err KeyError end end end).
Proof. intros K V EK. exact (@create_child_lookup K V EK). Qed.
Print Assumptions context_child_lookup.

Theorem context_frame : forall (K V : Type) (EK : EqDec K) (os : list (@ctx_op K V)) (h : @heap K V) r,
  r < length h -> (forall o, In o os -> ~ targets o r) ->
  forall k, ctx_value (ctx_run h os) r k = ctx_value h r k.
Proof. intros K V EK. exact (@ctx_run_frame K V EK). Qed.
Print Assumptions context_frame.

Theorem context_child_no_args_is_self : forall (K V : Type) (EK : EqDec K) (h : @heap K V) r,
  r < length h -> ctx_step h (CreateChild r [] []) = (h, ORef r).
Proof. intros K V EK h r lt. cbn [ctx_step]. destruct (nth_error h r) eqn:e; [reflexivity|].
       apply nth_error_None in e. lia. Qed.
Print Assumptions context_child_no_args_is_self.

Definition ex_heap : @heap string nat := [{| c_maps := [Plain [("x", 1); ("y", 7)]%string]; c_flat := None |}].
Example context_child_ex :
  let h1 := fst (ctx_step ex_heap (CreateChild 0 [Plain [("y", 8)]%string] [("x", 2)]%string)) in
  let h2 := ctx_run h1 [Prepend 1 (Plain [("x", 3)]%string); Append 1 (Plain [("z", 4)]%string)] in
  ctx_value h1 1 "x"%string = Some (Ok 2) /\ ctx_value h1 1 "y"%string = Some (Ok 8) /\
  ctx_value h2 1 "x"%string = Some (Ok 3) /\ ctx_value h2 0 "x"%string = Some (Ok 1) /\
  ctx_value h2 0 "z"%string = Some (Err KeyError).
Proof. vm_compute. repeat split; reflexivity. Qed.

(** the maps of a context after [prepend] and [append]: the new map is asked first, respectively last *)
Theorem context_prepend_append_lookup : forall (K V : Type) (EK : EqDec K) (h : @heap K V) r m k, r < length h ->
  (forall v, cm_lookup k m = Some v -> ctx_value (fst (ctx_step h (Prepend r m))) r k = Some (Ok v)) /\
  (cm_lookup k m = None -> ctx_value (fst (ctx_step h (Prepend r m))) r k = ctx_value h r k) /\
  (forall v, ctx_value h r k = Some (Ok v) -> ctx_value (fst (ctx_step h (Append r m))) r k = Some (Ok v)) /\
  (ctx_value h r k = Some (Err KeyError) -> ctx_value (fst (ctx_step h (Append r m))) r k = Some (cm_getitem m k)).
Proof.
  intros K V EK h r m k lt. destruct (nth_error h r) as [c|] eqn:e; [|apply nth_error_None in e; lia].
  unfold ctx_value. cbn [ctx_step]. rewrite e. cbn [fst]. rewrite !(nth_upd_nth_same _ _ _ _ e). cbn [c_maps].
  unfold cm_getitem. rewrite cm_lookup_cons, cm_lookup_app, cm_lookup_cons.
  split; [|split; [|split]].
  - intros v hv. rewrite hv. reflexivity.
  - intros hv. rewrite hv. reflexivity.
  - intros v. destruct (cm_lookup k (Chain (c_maps c))); [tauto|discriminate].
  - destruct (cm_lookup k (Chain (c_maps c))); [discriminate|]. intros _. destruct (cm_lookup k m); reflexivity.
Qed.
Print Assumptions context_prepend_append_lookup.
Example context_append_ex : ctx_value (fst (ctx_step ex_heap (Append 0 (Plain [("x", 5); ("z", 4)]%string)))) 0 "z"%string = Some (Ok 4) /\
  ctx_value (fst (ctx_step ex_heap (Append 0 (Plain [("x", 5); ("z", 4)]%string)))) 0 "x"%string = Some (Ok 1).
Proof. split; reflexivity. Qed.

(** a child of a chain map: the keyword values first, then the maps given, then the receiver *)
Theorem chainmap_new_child : forall (K V : Type) (EK : EqDec K) (self : cmap K V) maps kwargs k,
  cm_getitem (cm_new_child self maps kwargs) k =
    match dget k kwargs with Some v => Ok v | None =>
    match cm_getitem (Chain maps) k with Ok v => Ok v | Err _ => cm_getitem self k end end.
Proof.
  intros K V EK self maps kwargs k. unfold cm_getitem. rewrite cm_new_child_get.
  destruct (dget k kwargs); [reflexivity|]. destruct (cm_lookup k (Chain maps)); reflexivity.
Qed.
Print Assumptions chainmap_new_child.
