(** C13 get_descendant / split_path, C14 nested_dict_iter, C15 filter_collection, C16 to_list. *)
From Verif Require Import Coll_Model Coll_Spec Coll_Proofs.
From Coq Require Import Sorted.

(** * C13 *)
Theorem get_descendant_follows_path : forall obj keys v, keys <> [] -> At obj keys v ->
  (forall p q w, keys = p ++ q -> p <> [] -> q <> [] -> At obj p w -> truthy w = true) ->
  get_descendant obj keys = Ok v.
Proof. exact get_descendant_at. Qed.
Print Assumptions get_descendant_follows_path.

(** it never raises on a non-empty key list, and its result is the value at the path, or None when a step is missing, or
    the first falsy value met before the end of the path *)
Theorem get_descendant_total : forall obj keys, keys <> [] -> exists r, get_descendant obj keys = Ok r /\
  (At obj keys r \/
   (r = VNone /\ exists p k q o e, keys = p ++ k :: q /\ At obj p o /\ getitem o k = Err e) \/
   (truthy r = false /\ exists p q, keys = p ++ q /\ p <> [] /\ q <> [] /\ At obj p r)).
Proof. intros obj keys ne. exact (get_descendant_cases keys ne obj). Qed.
Print Assumptions get_descendant_total.

(** Finding: a path through a falsy value gives that value instead of None (utils.py:673-674). *)
Theorem get_descendant_missing_none_refuted : exists obj keys r,
  (forall v, ~ At obj keys v) /\ get_descendant obj keys = Ok r /\ r <> VNone.
Proof.
  exists (VDict [("a"%string, VInt 0)]), [KStr "a"; KStr "b"], (VInt 0). split; [|split; [reflexivity|discriminate]].
  intros v h. inversion h as [|o k c ks w e h1]; subst. injection e as <-. inversion h1 as [|o k c ks w e h2]; subst. discriminate.
Qed.
Print Assumptions get_descendant_missing_none_refuted.

Theorem split_path_components : forall ps : list (list ascii * list (list ascii)), ps <> [] ->
  (forall p, In p ps -> clean_word (fst p) /\ forall i, In i (snd p) -> clean_word i) ->
  split_path (render_path ps) = flat_map (fun p => fst p :: snd p) ps.
Proof. exact split_path_render. Qed.
Print Assumptions split_path_components.

(** Finding: indices written in a textual path stay strings (is_integer is false on strings, utils.py:655), so a path
    through a list is never followed: only string-keyed lookups happen. *)
Theorem split_path_list_index_refuted : exists obj, At obj [KStr "a"; KInt 1] (VInt 7) /\
  get_descendant_str obj (list_ascii_of_string "a[1]") = Ok VNone.
Proof.
  exists (VDict [("a"%string, VList [VInt 5; VInt 7])]). split; [|reflexivity].
  econstructor; [reflexivity|]. econstructor; [reflexivity|constructor].
Qed.
Print Assumptions split_path_list_index_refuted.

Example get_descendant_ex :
  let o := VDict [("a", VDict [("b", VList [VInt 1; VDict [("c", VStr "x")]])])]%string in
  get_descendant o [KStr "a"; KStr "b"; KInt (-1); KStr "c"] = Ok (VStr "x") /\
  get_descendant o [KStr "a"; KStr "z"; KInt 0] = Ok VNone /\
  split_path (list_ascii_of_string "ab.c[12][d].e") = map list_ascii_of_string ["ab"; "c"; "12"; "d"; "e"]%string.
Proof. repeat split. Qed.

(** * C14 *)
Theorem nested_dict_iter_leaves : forall d sep name v,
  In (name, v) (nested_dict_iter sep d) <-> exists p, LeafAt d p v /\ name = path_name sep p.
Proof.
  intros d sep name v. rewrite nested_dict_iter_names, in_map_iff. split.
  - intros ([p w] & e & i). injection e as <- <-. exists p. split; [apply leaf_paths_In; exact i|reflexivity].
  - intros (p & h & ->). exists (p, v). split; [reflexivity|]. apply leaf_paths_In. exact h.
Qed.
Print Assumptions nested_dict_iter_leaves.

(** the enumeration runs over the leaf paths, each once, in depth-first insertion order *)
Theorem nested_dict_iter_order : forall d, vwf d -> exists paths : list (list string * pyval),
  (forall sep, nested_dict_iter sep d = map (fun q => (path_name sep (fst q), snd q)) paths) /\
  (forall p v, In (p, v) paths <-> LeafAt d p v) /\
  NoDup (map fst paths) /\ StronglySorted (PathBefore d) (map fst paths).
Proof.
  intros d wf. exists (leaf_paths d). split; [exact (nested_dict_iter_names d)|]. split; [exact (leaf_paths_In d)|].
  split; [exact (leaf_paths_NoDup d wf)|exact (leaf_paths_sorted d wf)].
Qed.
Print Assumptions nested_dict_iter_order.

Theorem nested_dict_iter_default_names : forall p, path_name "." p = join "." p.
Proof. exact path_name_dot. Qed.
Print Assumptions nested_dict_iter_default_names.

(** with keys free of dots, the names are pairwise distinct *)
Theorem nested_dict_iter_names_unique : forall d, vwf d -> (forall p v k, LeafAt d p v -> In k p -> ~ has_char "." k) ->
  NoDup (map fst (nested_dict_iter "." d)).
Proof. exact nested_names_NoDup. Qed.
Print Assumptions nested_dict_iter_names_unique.

Definition nested_sample : pyval :=
  VDict [("a", VInt 1); ("b", VDict [("c", VInt 2); ("d", VDict [("e", VInt 3); ("f", VDict [])])]); ("g", VList [VDict []])]%string.
Example nested_sample_ex : vwf nested_sample /\
  nested_dict_iter "." nested_sample = [("a", VInt 1); ("b.c", VInt 2); ("b.d.e", VInt 3); ("g", VList [VDict []])]%string /\
  nested_dict_iter "/" nested_sample = [("a", VInt 1); ("b/c", VInt 2); ("b/d.e", VInt 3); ("g", VList [VDict []])]%string.
Proof. split; [|split; reflexivity]. cbn.
       repeat match goal with |- _ /\ _ => split | |- NoDup _ => constructor | |- True => exact I | |- ~ _ => simpl; intuition discriminate end. Qed.

(** * C15 *)
Theorem filter_collection_but : forall l but recursive, but <> [] ->
  exists l', filter_collection (VDict l) [] but recursive = Ok (Fresh (VDict l')) /\
    (forall k v, In (k, v) l' <-> In (k, v) l /\ ~ In k but) /\
    (exists keep, l' = filter keep l).
Proof.
  intros l but recursive ne. rewrite filter_but by exact ne. eexists. split; [reflexivity|]. split; [|eauto].
  intros k v. rewrite filter_In. cbn [fst]. destruct (mem_spec EqDec_string k but); simpl; intuition discriminate.
Qed.
Print Assumptions filter_collection_but.

Theorem filter_collection_nothing : forall data recursive, filter_collection data [] [] recursive = Ok Same.
Proof. reflexivity. Qed.
Print Assumptions filter_collection_nothing.

(** Finding: [only] does not filter anything (utils.py:453-456). *)
Theorem filter_collection_only_keeps_all : forall l only, only <> [] ->
  filter_collection (VDict l) only [] false = Ok (Fresh (VDict l)).
Proof. intros l only ne. destruct only; [congruence|reflexivity]. Qed.
Print Assumptions filter_collection_only_keeps_all.

Theorem filter_collection_only_refuted : exists l only k v,
  filter_collection (VDict l) only [] false = Ok (Fresh (VDict l)) /\ In (k, v) l /\ ~ In k only.
Proof.
  exists [("a", VInt 1); ("b", VInt 2)]%string, ["a"%string], "b"%string, (VInt 2). split; [reflexivity|].
  split; [right; left; reflexivity|]. intros [h|[]]. discriminate.
Qed.
Print Assumptions filter_collection_only_refuted.

(** Finding: a non-empty sequence always raises TypeError; so does [recursive] with a matching [only] key. *)
Theorem filter_collection_sequence_raises : forall l only but recursive, l <> [] -> only <> [] \/ but <> [] ->
  filter_collection (VList l) only but recursive = Err TypeError.
Proof. intros l only but recursive ne h. destruct l; [congruence|]. destruct only; [destruct but|]; reflexivity || (destruct h; congruence). Qed.
Print Assumptions filter_collection_sequence_raises.
Theorem filter_collection_recursive_refuted : forall l only, only <> [] ->
  (filter_collection (VDict l) only [] true = Err TypeError <-> exists k, In k only /\ In k (dkeys l)) /\
  ((forall k, In k only -> ~ In k (dkeys l)) -> filter_collection (VDict l) only [] true = Ok (Fresh (VDict l))).
Proof.
  intros l only ne. destruct only as [|a only]; [congruence|]. unfold filter_collection, filter_keys. cbn [andb rbind].
  destruct (existsb (fun k => dmem k l) (a :: only)) eqn:e; cbn [rbind].
  - apply existsb_exists in e. destruct e as (k & i & m). apply dmem_In in m. split; [split; [intros _; eauto|reflexivity]|].
    intros h. destruct (h k i m).
  - split; [split; [discriminate|]|reflexivity]. intros (k & i & m). apply dmem_In in m.
    assert (q : existsb (fun k => dmem k l) (a :: only) = true) by (apply existsb_exists; eauto). congruence.
Qed.
Print Assumptions filter_collection_recursive_refuted.

(** * C16 *)
Theorem to_list_gives_list : forall x d, x <> VNone -> exists l, to_list x d = VList l.
Proof. exact to_list_shape. Qed.
Print Assumptions to_list_gives_list.

Theorem to_list_elements : forall x d, to_list VNone d = d /\ (forall l, to_list (VList l) d = VList l) /\
  (forall l, to_list (VTup l) d = VList l) /\ (x <> VNone -> is_sequence x = false -> to_list x d = VList [x]).
Proof. intros x d. repeat split. intros n s. destruct x; simpl in *; congruence. Qed.
Print Assumptions to_list_elements.

Theorem to_list_idempotent : forall x d d', x <> VNone -> to_list (to_list x d) d' = to_list x d.
Proof. exact to_list_idem. Qed.
Print Assumptions to_list_idempotent.

Theorem to_none_single_list_cases : forall l, to_none_single_list (VList l) =
  match length l with 0 => VNone | 1 => hd VNone l | _ => VList l end.
Proof. intros l. destruct l as [|x [|y l]]; reflexivity. Qed.
Print Assumptions to_none_single_list_cases.

Theorem to_list_roundtrip : forall l d, l <> [] -> (forall x, In x l -> x <> VNone /\ is_sequence x = false) ->
  to_list (to_none_single_list (VList l)) d = VList l.
Proof. exact to_list_round. Qed.
Print Assumptions to_list_roundtrip.

Example to_list_ex : to_list (to_none_single_list (VList [VStr "a"])) VNone = VList [VStr "a"] /\
  to_list (VDict []) VNone = VList [VDict []] /\ to_none_single_list (VTup [VInt 1; VInt 2]) = VList [VInt 1; VInt 2].
Proof. repeat split. Qed.
