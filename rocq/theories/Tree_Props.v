(** C54: parents, canonical names, roots, dotted access and search by canonical name. *)
From Verif Require Export Tree_Proofs.
From Verif Require Import Ns_Proofs Coll_Proofs.
Local Open Scope char_scope.
Local Open Scope list_scope.

(** * Parents *)
(** An object made inside any nesting of objects and arrays has as parent the nearest object around it, arrays not counted;
    without one it has no parent. *)
Theorem parent_is_nearest_object : forall base outer self k,
  (forall n i, ~ In (MObj n i) base) -> ~ In self (map fst outer) ->
  match parent_in k self (member_context base outer) with
  | Some p => exists near far i, outer = near ++ (p, KObj i) :: far /\ forall c, In c near -> snd c = KArr
  | None => forall c, In c outer -> snd c = KArr
  end.
Proof. intros base outer self k hb hs. rewrite parent_in_out. apply first_object_member; assumption. Qed.
Print Assumptions parent_is_nearest_object.

(** Its parent instance is the nearest Instance around it, whatever objects and arrays lie between. *)
Theorem parent_instance_is_nearest : forall base outer self k,
  (forall n i, ~ In (MObj n i) base) -> ~ In self (map fst outer) ->
  match instance_parent_in k self (member_context base outer) with
  | Some p => exists near far, outer = near ++ (p, KObj true) :: far /\ forall c, In c near -> snd c <> KObj true
  | None => forall c, In c outer -> snd c <> KObj true
  end.
Proof. intros base outer self k hb hs. rewrite iparent_in_out. apply first_instance_member; assumption. Qed.
Print Assumptions parent_instance_is_nearest.
Example parents_ex : parent_in (KObj true) 3 (member_context [MOther] [(2, KArr); (1, KObj false); (0, KObj true)]) = Some 1 /\
  instance_parent_in (KObj true) 3 (member_context [MOther] [(2, KArr); (1, KObj false); (0, KObj true)]) = Some 0.
Proof. split; reflexivity. Qed.

(** * Canonical names *)
(** The canonical name of an instance is the names of its ancestors from the top, then its own, separated by dots. *)
Theorem canonical_name_is_path : forall h i p l limit, n_iparent (h i) = Some p ->
  Line (fun j => n_iparent (h j)) i l -> length l <= limit ->
  canonical_name limit h i = Ok (Some (dotted (rev (map (fun j => shown (own_name (h j))) l)))).
Proof.
  intros h i p l limit hp hl hlen. destruct (canonical_line h i l hl limit hlen) as (r & e & hs & _ & hn).
  rewrite e. destruct r as [s|]; [simpl in hs; rewrite hs; reflexivity|].
  exfalso. apply hn; [|reflexivity]. intros el. rewrite el in hl. inversion hl as [i' e1 e2|i' p' l' e1 hl' e2]; [congruence|]. destruct (Line_nonempty _ _ _ hl') as (l2 & e3). discriminate.
Qed.
Print Assumptions canonical_name_is_path.
Theorem canonical_name_of_top : forall h i limit, n_iparent (h i) = None ->
  canonical_name (S limit) h i = Ok (own_name (h i)) /\
  (forall n, n <> [] -> n_valid (h i) = Some n -> canonical_name (S limit) h i = Ok (Some n)) /\
  (n_valid (h i) = None \/ n_valid (h i) = Some [] -> canonical_name (S limit) h i = Ok (n_raw (h i))).
Proof.
  intros h i limit e. simpl. rewrite e. split; [reflexivity|]. unfold own_name. split.
  - intros [|c n] ne e1; [congruence|]. rewrite e1. reflexivity.
  - intros [-> | ->]; reflexivity.
Qed.
Print Assumptions canonical_name_of_top.

(** Hence the parent's canonical name followed by a dot and the own name. *)
Theorem canonical_name_of_child : forall h i p pn limit, n_iparent (h i) = Some p -> canonical_name limit h p = Ok (Some pn) ->
  forall n, own_name (h i) = Some n -> canonical_name (S limit) h i = Ok (Some (pn ++ "." :: n)).
Proof. intros h i p pn limit e1 e2 n e3. simpl. rewrite e1, e2, e3. reflexivity. Qed.
Print Assumptions canonical_name_of_child.

(** Two instances with different paths of names have different canonical names, if names have no dot. *)
Theorem canonical_names_distinct : forall h i j li lj limit,
  Line (fun k => n_iparent (h k)) i li -> Line (fun k => n_iparent (h k)) j lj -> length li <= limit -> length lj <= limit ->
  (forall k, In k (li ++ lj) -> exists n, own_name (h k) = Some n /\ ~ In "." n) ->
  canonical_name limit h i = canonical_name limit h j ->
  map (fun k => own_name (h k)) li = map (fun k => own_name (h k)) lj.
Proof.
  intros h i j li lj limit hi hj hli hlj hn e.
  destruct (canonical_line h i li hi limit hli) as (ri & ei & si & _).
  destruct (canonical_line h j lj hj limit hlj) as (rj & ej & sj & _).
  assert (er : ri = rj) by congruence. subst rj. rewrite si in sj. unfold printed, dotted in sj.
  assert (names : forall l, (forall k, In k l -> In k (li ++ lj)) -> l <> [] ->
      split_char "." (ljoin ["."] (rev (map (fun k => shown (own_name (h k))) l))) = rev (map (fun k => shown (own_name (h k))) l)).
  { intros l hl hne. apply split_join.
    - destruct l; [congruence|]. simpl. intro e0. apply app_eq_nil in e0. destruct e0. discriminate.
    - intros w hw. apply in_rev in hw. apply in_map_iff in hw. destruct hw as (k & <- & hk).
      destruct (hn k (hl k hk)) as (n & en & hd). rewrite en. exact hd. }
  assert (e2 : rev (map (fun k => shown (own_name (h k))) li) = rev (map (fun k => shown (own_name (h k))) lj)).
  { rewrite <- (names li), <- (names lj); [congruence|..].
    - intros k hk. apply in_app_iff. right. exact hk.
    - destruct (Line_nonempty _ _ _ hj) as (l' & ->). discriminate.
    - intros k hk. apply in_app_iff. left. exact hk.
    - destruct (Line_nonempty _ _ _ hi) as (l' & ->). discriminate. }
  apply (f_equal (@rev _)) in e2. rewrite !rev_involutive in e2.
  assert (H : forall l, (forall k, In k l -> In k (li ++ lj)) -> map (fun k => own_name (h k)) l = map Some (map (fun k => shown (own_name (h k))) l)).
  { intros l hl. rewrite map_map. apply map_ext_in. intros k hk. destruct (hn k (hl k hk)) as (n & en & _). rewrite en. reflexivity. }
  rewrite !H, e2; [reflexivity| |]; intros k hk; apply in_app_iff; [right|left]; exact hk.
Qed.
Print Assumptions canonical_names_distinct.

Definition heap_of (l : list node) (d : node) : heap := fun i => nth i l d.
Definition mk (p : option nat) (n : option str) (size : nat) : node :=
  {| n_parent := p; n_iparent := p; n_valid := None; n_raw := n; n_size := size |}.
(** a with children b and c, b with child d *)
Definition ex_heap : heap := heap_of [mk None (Some ["a"]) 3; mk (Some 0) (Some ["b"]) 2; mk (Some 0) (Some ["c"]) 1; mk (Some 1) (Some ["d"]) 1] (mk None None 0).
Example canonical_ex : canonical_name 10 ex_heap 3 = Ok (Some (chars "a.b.d")) /\
  Line (fun k => n_iparent (ex_heap k)) 3 [3; 1; 0] /\ root 10 ex_heap 3 = Ok 0.
Proof. split; [reflexivity|]. split; [|reflexivity]. repeat (eapply Line_up; [reflexivity|]). apply Line_top. reflexivity. Qed.

(** Without that condition they may be equal: a name with a dot, or a missing name and the name None. *)
Theorem canonical_names_distinct_refuted :
  (exists h, canonical_name 10 h 1 = canonical_name 10 h 2 /\ n_iparent (h 1) = Some 0 /\ n_iparent (h 2) = None /\ own_name (h 0) <> None /\ own_name (h 1) <> None) /\
  (exists h, canonical_name 10 h 1 = canonical_name 10 h 2 /\ n_iparent (h 1) = Some 0 /\ n_iparent (h 2) = Some 0 /\ own_name (h 1) = None /\ own_name (h 2) <> None).
Proof.
  split.
  - exists (heap_of [mk None (Some ["a"]) 1; mk (Some 0) (Some ["b"]) 1; mk None (Some ["a"; "."; "b"]) 1] (mk None None 0)).
    repeat split; discriminate.
  - exists (heap_of [mk None (Some ["a"]) 1; mk (Some 0) None 1; mk (Some 0) (Some (chars "None")) 1] (mk None None 0)).
    repeat split; discriminate.
Qed.
Print Assumptions canonical_names_distinct_refuted.

(** It is defined exactly when there are fewer ancestors than the recursion limit; otherwise RecursionError. *)
Theorem canonical_name_defined : forall h i limit,
  (is_ok (canonical_name limit h i) = true <-> exists l, Line (fun j => n_iparent (h j)) i l /\ length l <= limit) /\
  (is_ok (canonical_name limit h i) = false -> canonical_name limit h i = Err RecursionError).
Proof.
  intros h i limit. split; [split|].
  - destruct (canonical_name limit h i) eqn:e; [|discriminate]. intros _. eapply canonical_ok_line; exact e.
  - intros (l & hl & hlen). destruct (canonical_line h i l hl limit hlen) as (r & e & _). rewrite e. reflexivity.
  - destruct (canonical_name limit h i) eqn:e; [discriminate|]. intros _. f_equal. eapply canonical_err; exact e.
Qed.
Print Assumptions canonical_name_defined.

(** * Root *)
(** The root of a node is its topmost ancestor, when no ancestor is empty. *)
Theorem root_is_topmost : forall h i l limit, Line (fun j => n_parent (h j)) i l -> length l <= limit ->
  (forall a, In a (tl l) -> n_size (h a) <> 0) ->
  exists top, root limit h i = Ok top /\ last l i = top /\ n_parent (h top) = None.
Proof.
  intros h i l limit hl hlen hs. exists (last l i). split; [apply root_line; assumption|]. split; [reflexivity|].
  clear -hl. induction hl as [i e|i p l e H IH]; [exact e|].
  destruct (Line_nonempty _ _ _ H) as (l' & ->). destruct l' as [|q l']; [exact IH|].
  change (last (i :: p :: q :: l') i) with (last (q :: l') i). change (last (p :: q :: l') p) with (last (q :: l') p) in IH.
  replace (last (q :: l') i) with (last (q :: l') p); [exact IH|]. clear. revert q. induction l' as [|x l' IH]; intros q; [reflexivity|]. simpl in *. apply IH.
Qed.
Print Assumptions root_is_topmost.
(** An emptied parent counts as no parent. *)
Theorem root_is_topmost_refuted : exists h, n_parent (h 1) = Some 0 /\ n_parent (h 0) = None /\ root 10 h 1 = Ok 1.
Proof. exists (heap_of [mk None (Some ["a"]) 0; mk (Some 0) (Some ["b"]) 1] (mk None None 0)). repeat split. Qed.
Print Assumptions root_is_topmost_refuted.

(** * Splitting canonical names *)
Theorem split_cname_absolute : forall p ps, fst p <> [] ->
  (forall q, In q (p :: ps) -> ~ In "." (fst q) /\ ~ In "[" (fst q)) ->
  split_cname (dotted (map with_positions (p :: ps))) =
  Ok (Parts (flat_map (fun q => SName (fst q) :: map (fun i => SIdx (Z.of_nat i)) (snd q)) (p :: ps))).
Proof. exact split_cname_positions. Qed.
Print Assumptions split_cname_absolute.
Example split_cname_ex : dotted (map with_positions [(["a"], [0; 12]); (["b"], [])]) = chars "a[0][12].b" /\
  split_cname (chars "a[0][12].b") = Ok (Parts [SName ["a"]; SIdx 0; SIdx 12; SName ["b"]]).
Proof. split; reflexivity. Qed.
(** A relative name (starting with a dot) loses all its components. *)
Theorem split_cname_relative_refuted : forall ns, (forall n, In n ns -> ~ In "." n /\ ~ In "[" n) ->
  split_cname ("." :: dotted ns) = Ok EmptyText.
Proof.
  intros ns h. unfold split_cname, dotted. destruct ns as [|n ns]; [reflexivity|].
  replace ("." :: ljoin ["."] (n :: ns)) with (ljoin ["."] ([] :: n :: ns)) by reflexivity.
  rewrite split_join; [|discriminate|intros w [<-|hw]; [intros []|apply (h w hw)]].
  assert (e : map with_positions (map (fun m : str => (m, @nil nat)) ([] :: n :: ns)) = [] :: n :: ns).
  { rewrite map_map. transitivity (map (fun m : str => m) ([] :: n :: ns)); [|apply map_id]. apply map_ext. intros m. unfold with_positions. simpl. apply app_nil_r. }
  rewrite <- e, split_parts_positions; [reflexivity|].
  intros q hq. apply in_map_iff in hq. destruct hq as (m & <- & [<-|hm]); [intros []|apply (h m hm)].
Qed.
Print Assumptions split_cname_relative_refuted.

(** * Dotted access *)
Section Access.
  Variable reserved : str -> bool.
  Notation get := (get_key reserved).
  Notation put := (put_key reserved).

  (** Reading a dotted name gives exactly the value reached by following its components. *)
  Theorem dotted_get : forall parent o n m ns v, (forall k, In k (n :: m :: ns) -> Component k /\ reserved k = false) -> v <> TNone ->
    (get parent o (dotted (n :: m :: ns)) = Ok v <-> ValueAt o (n :: m :: ns) v).
  Proof.
    intros parent o n m ns v h hv. unfold get_key.
    destruct (dotted (n :: m :: ns)) as [|c s] eqn:e; [exfalso; revert e; apply dotted_nonempty|].
    rewrite <- e, dotted_has_dot. rewrite split_cname_dotted by (intros k hk; apply (h k hk)). cbn [rbind].
    assert (hr : forall k, In k (n :: m :: ns) -> reserved k = false) by (intros k hk; apply (h k hk)).
    split; intros H.
    - destruct (follow_all reserved o (map SName (n :: m :: ns))) as [w|] eqn:e2; [|discriminate].
      injection H as ->. eapply follow_sound; eassumption.
    - rewrite (follow_complete reserved _ hr _ _ H hv). reflexivity.
  Qed.
  (** Otherwise the answer is None or KeyError. *)
  Theorem dotted_get_else : forall parent o n m ns, (forall k, In k (n :: m :: ns) -> Component k /\ reserved k = false) ->
    (exists v, v <> TNone /\ get parent o (dotted (n :: m :: ns)) = Ok v) \/
    get parent o (dotted (n :: m :: ns)) = Ok TNone \/ get parent o (dotted (n :: m :: ns)) = Err KeyError.
  Proof.
    intros parent o n m ns h. unfold get_key.
    destruct (dotted (n :: m :: ns)) as [|c s] eqn:e; [exfalso; revert e; apply dotted_nonempty|].
    rewrite <- e, dotted_has_dot. rewrite split_cname_dotted by (intros k hk; apply (h k hk)). cbn [rbind].
    destruct (follow_all reserved o (map SName (n :: m :: ns))) as [[| | | |]|] eqn:e2;
      [right; left; reflexivity|left; eexists; split; [|reflexivity]; discriminate..|right; right; reflexivity].
  Qed.

  (** Assigning a dotted name whose object exists and accepts it: the value is then read there, and nothing changes
      elsewhere in the tree. *)
  Theorem dotted_set : forall o pre k free l v, pre <> [] -> (forall n, In n (pre ++ [k]) -> Component n /\ reserved n = false) ->
    ValueAt o pre (TObj free l) -> dmem k l || free k = true ->
    exists o', put o (dotted (pre ++ [k])) v = Ok o' /\ ValueAt o' (pre ++ [k]) v /\
      forall qs w, ~ Comparable (pre ++ [k]) qs -> (ValueAt o' qs w <-> ValueAt o qs w).
  Proof.
    intros o pre k free l v hne h hva hk.
    assert (hr : forall n, In n (pre ++ [k]) -> reserved n = false) by (intros n hn; apply (h n hn)).
    destruct (put_value reserved pre k hr o free l v hva hk) as (o' & e & h1 & h2).
    exists o'. split; [|split; assumption]. unfold put_key.
    destruct pre as [|a pre]; [congruence|]. assert (hs : exists b bs, pre ++ [k] = b :: bs) by (destruct pre; repeat eexists).
    destruct hs as (b & bs & es). simpl app in *. rewrite es in *.
    rewrite dotted_has_dot, split_cname_dotted by (intros n hn; apply (h n hn)). cbn [rbind]. rewrite e. reflexivity.
  Qed.
  (** An assignment that raises nothing either did that or changed nothing, because of a None on the way. *)
  Theorem dotted_set_sound : forall o pre k v o', pre <> [] -> (forall n, In n (pre ++ [k]) -> Component n /\ reserved n = false) ->
    put o (dotted (pre ++ [k])) v = Ok o' ->
    (exists free l, ValueAt o pre (TObj free l) /\ ValueAt o' (pre ++ [k]) v) \/
    (o' = o /\ exists p1 n p2 free l, pre = p1 ++ n :: p2 /\ ValueAt o p1 (TObj free l) /\ (dget n l = Some TNone \/ (dget n l = None /\ free n = true))).
  Proof.
    intros o pre k v o' hne h H.
    assert (hr : forall n, In n (pre ++ [k]) -> reserved n = false) by (intros n hn; apply (h n hn)).
    assert (H2 : put_all reserved o (map SName (pre ++ [k])) v = Ok o').
    { unfold put_key in H. destruct pre as [|a pre]; [congruence|]. assert (hs : exists b bs, pre ++ [k] = b :: bs) by (destruct pre; repeat eexists).
      destruct hs as (b & bs & es). simpl app in *. rewrite es in *.
      rewrite dotted_has_dot, split_cname_dotted in H by (intros n hn; apply (h n hn)). cbn [rbind] in H.
      destruct (put_all reserved o (map SName (a :: b :: bs)) v); [exact H|discriminate]. }
    destruct (put_sound reserved pre k hr o v o' H2) as [(free & l & hva & hk)|hn]; [|right; exact hn].
    left. exists free, l. split; [exact hva|]. destruct (put_value reserved pre k hr o free l v hva hk) as (o2 & e & h1 & _). congruence.
  Qed.
  (** An error leaves KeyError as the only exception. *)
  Theorem dotted_set_error : forall o n m ns v e, (forall k, In k (n :: m :: ns) -> Component k /\ reserved k = false) ->
    put o (dotted (n :: m :: ns)) v = Err e -> e = KeyError.
  Proof.
    intros o n m ns v e h. unfold put_key. rewrite dotted_has_dot, split_cname_dotted by (intros k hk; apply (h k hk)). cbn [rbind].
    destruct (put_all reserved o (map SName (n :: m :: ns)) v); congruence.
  Qed.

  (** Positions never resolve, although split_cname knows them: whatever the tree, reading or writing fails. *)
  Theorem dotted_position_refuted : forall parent o v n i m, Component n -> Component m -> reserved n = false ->
    (forall w, get parent o (dotted [with_positions (n, [i]); m]) = Ok w -> w = TNone) /\
    (forall o', put o (dotted [with_positions (n, [i]); m]) v = Ok o' -> o' = o).
  Proof.
    intros parent o v n i m hn hm hr.
    assert (es : split_cname (dotted [with_positions (n, [i]); m]) = Ok (Parts [SName n; SIdx (Z.of_nat i); SName m])).
    { assert (H := split_cname_positions (n, [i]) [(m, [])]). cbn [map flat_map fst snd app] in H.
      assert (em : with_positions (m, []) = m) by (unfold with_positions; simpl; apply app_nil_r). rewrite em in H. apply H; [apply hn|].
      intros q [<-|[<-|[]]]; simpl; split; apply hn || apply hm. }
    assert (hd : mem "." (dotted [with_positions (n, [i]); m]) = true) by apply dotted_has_dot.
    split.
    - intros w. unfold get_key. destruct (dotted [with_positions (n, [i]); m]) as [|c s]; [discriminate|].
      rewrite hd, es. cbn [rbind follow_all follow1]. rewrite hr.
      destruct o; try discriminate. destruct (dget n l) as [[]|]; try discriminate; [|destruct (free n); [|discriminate]]; cbn; congruence.
    - intros o'. unfold put_key. rewrite hd, es. cbn [rbind put_all follow1]. rewrite hr.
      destruct o; try discriminate. destruct (dget n l) as [[]|]; try discriminate; [|destruct (free n); [|discriminate]]; cbn; congruence.
  Qed.

  (** a key without a dot: the member of that name, or KeyError; the empty key is the parent *)
  Theorem plain_get : forall parent free l key, ~ In "." key -> key <> [] ->
    get parent (TObj free l) key = match dget key l with Some v => Ok v | None => Err KeyError end.
  Proof.
    intros parent free l key nd ne. unfold get_key. destruct key as [|c key]; [congruence|]. rewrite (proj2 (mem_not_In EqDec_ascii _ _) nd). reflexivity.
  Qed.
  (** an index that is no number: ValueError, for reading and writing *)
  Theorem bad_index : forall parent o v n w m, Component n -> ~ In "." w -> ~ In "[" w -> ~ In "." m ->
    parse_int (strip ["]"] w) = None ->
    get parent o (n ++ "[" :: w ++ "." :: m) = Err ValueError /\ put o (n ++ "[" :: w ++ "." :: m) v = Err ValueError.
  Proof.
    intros parent o v n w m [ne [nd nb]] wd wb md bad.
    assert (D : mem "." (n ++ "[" :: w ++ "." :: m) = true).
    { apply (mem_In EqDec_ascii). rewrite in_app_iff. right. right. rewrite in_app_iff. right. left. reflexivity. }
    assert (S : split_cname (n ++ "[" :: w ++ "." :: m) = Err ValueError).
    { unfold split_cname. replace (n ++ "[" :: w ++ "." :: m) with ((n ++ "[" :: w) ++ "." :: m) by (rewrite <- app_assoc; reflexivity).
      rewrite split_char_app. 2:{ rewrite in_app_iff. intros [i|[i|i]]; [exact (nd i)|discriminate|exact (wd i)]. }
      cbn [split_parts]. unfold split_part at 1. rewrite (split_char_app "[" n w nb), (split_char_free "[" w wb). cbn [indices]. rewrite bad. reflexivity. }
    unfold get_key, put_key. rewrite D, S. destruct (n ++ "[" :: w ++ "." :: m) eqn:en; [destruct n; discriminate|]. split; reflexivity.
  Qed.
End Access.
Print Assumptions dotted_get.
Print Assumptions dotted_get_else.
Print Assumptions plain_get.
Print Assumptions bad_index.
Print Assumptions dotted_set.
Print Assumptions dotted_set_sound.
Print Assumptions dotted_set_error.
Print Assumptions dotted_position_refuted.

Definition closed : str -> bool := fun _ => false.
Definition ex_tree : tv :=
  TObj closed [(["a"], TObj closed [(["b"], TText ["x"]); (["z"], TNone)]); (["c"], TArr [TObj closed [(["b"], TText ["y"])]]); (name_field, TText ["t"])].
Example dotted_ex : get_key closed TNone ex_tree (chars "a.b") = Ok (TText ["x"]) /\ ValueAt ex_tree [["a"]; ["b"]] (TText ["x"]) /\
  get_key closed TNone ex_tree (chars "a.q") = Err KeyError /\ get_key closed TNone ex_tree (chars "a.z.q") = Ok TNone /\
  get_key closed TNone ex_tree (chars "c[0].b") = Err KeyError /\
  (exists o', put_key closed ex_tree (chars "a.b") (TText ["w"]) = Ok o' /\ get_key closed TNone o' (chars "a.b") = Ok (TText ["w"])).
Proof.
  split; [reflexivity|]. split; [repeat (econstructor; try reflexivity)|]. repeat (split; [reflexivity|]). eexists. split; reflexivity.
Qed.

(** * Search *)
(** The search yields exactly the objects whose path of simple names is the one asked for, with their access paths. *)
Theorem search_by_name : forall t ns p d, ns <> [] -> (In (d, p) (find_named ns t [] []) <-> Named t ns p d).
Proof.
  intros t ns p d hne. assert (H := find_named_In t [] ns [] d p). simpl in H. rewrite H by exact hne. split.
  - intros (q & -> & hq). exact hq.
  - intros hN. exists p. split; [reflexivity|exact hN].
Qed.
Print Assumptions search_by_name.
Example search_ex : let t := TObj closed [(name_field, TText ["t"]); (["c"], TArr [TText ["q"]; TObj closed [(name_field, TText (chars "ns:u"))]])] in
  find_named [["t"]; ["u"]] t [] [] = [(TObj closed [(name_field, TText (chars "ns:u"))], [StepKey ["c"]; StepPos 1])].
Proof. reflexivity. Qed.

(** [resolve_cname] does not look for its argument: an object that is no Instance always raises IndexError, an Instance
    always answers the path made of its own name. *)
Theorem resolve_cname_ignores_argument_refuted :
  (forall self free l cname, self = TObj free l -> resolve_cname_path false self cname = Err IndexError) /\
  (forall free l n cname, dget (chars "name") l = Some (TText n) -> n <> [] -> ~ In ":" n ->
     resolve_cname_path true (TObj free l) cname = Ok [StepKey n]) /\
  (forall free l cname, dget (chars "name") l = None -> resolve_cname_path true (TObj free l) cname = Err AttributeError).
Proof.
  change (chars "name") with name_field. split; [|split; [|intros free l cname e; unfold resolve_cname_path; rewrite e; reflexivity]].
  - intros self free l cname ->. reflexivity.
  - intros free l n cname e hne hc. unfold resolve_cname_path. rewrite e. rewrite last_split_free by exact hc.
    assert (es : simple_name l = n).
    { unfold simple_name. rewrite e. destruct n as [|c s]; [congruence|]. apply last_split_free. exact hc. }
    assert (ef : exists rest, find_named [n] (TObj free l) [] [] = (TObj free l, []) :: rest).
    { cbn [find_named app]. rewrite es. unfold is_prefixb. rewrite !beq_refl. cbn [andb app]. eexists. reflexivity. }
    destruct ef as (rest & ->). rewrite es, beq_refl, orb_true_r. reflexivity.
Qed.
Print Assumptions resolve_cname_ignores_argument_refuted.
Example resolve_cname_ex : let t := TObj closed [(name_field, TText ["t"]); (["c"], TObj closed [(name_field, TText ["u"])])] in
  resolve_cname_path true t [["t"]; ["u"]] = Ok [StepKey ["t"]] /\ exists p d, Named t [["t"]; ["u"]] p d /\ p = [StepKey ["c"]].
Proof.
  split; [reflexivity|]. do 2 eexists. split; [|reflexivity].
  apply (search_by_name _ [["t"]; ["u"]]); [discriminate|]. left. reflexivity.
Qed.
