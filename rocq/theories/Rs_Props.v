(** The schema a type shows (C99). *)
From Verif Require Import Base PyVal Rs_Model Rs_Spec.
Local Open Scope string_scope. Local Open Scope list_scope.

Lemma get_app (a b : keywords) k : dget k (a ++ b) = match dget k a with Some v => Some v | None => dget k b end.
Proof. induction a as [|[x v] a IH]; [reflexivity|]. cbn [app dget]. destruct (eq_dec k x); [reflexivity | exact IH]. Qed.
Lemma get_filter (f : string -> bool) (a : keywords) k : dget k (filter (fun p => f (fst p)) a) = if f k then dget k a else None.
Proof.
  induction a as [|[x v] a IH]; [destruct (f k); reflexivity|]. cbn [filter fst]. destruct (f x) eqn:e; cbn [dget]; destruct (eq_dec k x) as [->|n]; [rewrite e; reflexivity | exact IH | rewrite IH, e; reflexivity | exact IH].
Qed.
Lemma chain_get own cls k : dget k (chain own cls) = given own cls k.
Proof.
  unfold chain, given. rewrite get_app. destruct (dget k own) eqn:e; [reflexivity|]. rewrite (get_filter (fun x => negb (mem x (dkeys own)))).
  apply dget_None in e. rewrite (proj2 (mem_not_In _ _ _) e). reflexivity.
Qed.
Lemma front_get rs k : dget k (front rs) = dget k rs.
Proof.
  unfold front. destruct (dget "type" rs) eqn:e; [|reflexivity]. cbn [dget]. destruct (eq_dec k "type") as [->|ne]; [symmetry; exact e|].
  rewrite dget_ddel. destruct (eq_dec k "type"); [congruence | reflexivity].
Qed.
Lemma put_if_get b k v rs x : dget x (put_if b k v rs) = if b && beq x k then Some v else dget x rs.
Proof. unfold put_if. destruct b; [|reflexivity]. rewrite dget_dset. cbn [andb]. destruct (eq_dec x k) as [->|n]; [rewrite (beq_refl _ k); reflexivity|]. rewrite (proj2 (beq_false _ x k) n). reflexivity. Qed.

(** * C99 *)
(** an instance shows the keywords it was given, and those of its class *)
Theorem scalar_shown : forall n cls own k, dget k (show false (TScalar n cls own)) = given own cls k.
Proof. intros. cbn [show]. rewrite front_get. apply chain_get. Qed.
Lemma item_shown_is i : item_shown i = if is_type i then SSchema (show false i) else SItself (number i).
Proof. destruct i as [n cls own|n tr cls|n [|] cls own l its a b u s d|n [|] cls own r ro ps ad]; reflexivity. Qed.
Lemma item_kept {A} i (x : A) : (match i with TConst _ false _ => None | _ => Some x end) = if truthy_type i then Some x else None.
Proof. destruct i as [n cls own|n [|] cls|n c cls own l its a b u s d|n c cls own r ro ps ad]; reflexivity. Qed.
Lemma array_items_is (is_list : bool) items : (match is_list, items with _, [] => None | true, _ => Some (SListed (map item_shown items))
  | false, TConst _ false _ :: _ => None | false, i :: _ => Some (item_shown i) end)
  = match is_list, items with _, [] => None | true, _ => Some (SListed (map (fun i => if is_type i then SSchema (show false i) else SItself (number i)) items))
    | false, i :: _ => if truthy_type i then Some (if is_type i then SSchema (show false i) else SItself (number i)) else None end.
Proof.
  destruct is_list, items as [|i items]; try reflexivity.
  - do 2 f_equal. apply map_ext. exact item_shown_is.
  - rewrite <- item_shown_is. apply (item_kept i).
Qed.
(** an array shows its items and limits, and under the other keywords what it was given *)
Theorem array_shown : forall n c cls own is_list items minI maxI unique split delim k,
  dget k (show false (TArray n c cls own is_list items minI maxI unique split delim)) =
  match array_keyword is_list items minI maxI unique split delim k with Some v => Some v | None => given own cls k end.
Proof.
  intros. cbn [show andb]. rewrite !put_if_get.
  assert (e : forall x, dget x (if is_list then put_if (nonempty items) "items" (SListed (map (fun i => if is_type i then SSchema (show false i) else SItself (number i)) items)) (front (chain own cls))
     else match items, map (fun i => if is_type i then SSchema (show false i) else SItself (number i)) items with i :: _, r :: _ => put_if (truthy_type i) "items" r (front (chain own cls)) | _, _ => front (chain own cls) end)
     = match (if beq x "items" then match is_list, items with _, [] => None | true, _ => Some (SListed (map (fun i => if is_type i then SSchema (show false i) else SItself (number i)) items)) | false, i :: _ => if truthy_type i then Some (if is_type i then SSchema (show false i) else SItself (number i)) else None end else None) with Some v => Some v | None => given own cls x end).
  { intros x. destruct items as [|i items]; [|].
    - cbn [map nonempty]. assert (q : dget x (put_if false "items" (SListed []) (front (chain own cls))) = given own cls x) by (cbn [put_if]; rewrite front_get; apply chain_get).
      destruct is_list; [rewrite q|rewrite front_get, chain_get]; destruct (beq x "items"); reflexivity.
    - cbn [map nonempty]. destruct is_list; rewrite put_if_get, front_get, chain_get; destruct (beq x "items") eqn:ex; cbn [andb]; [reflexivity|reflexivity| |].
      + destruct (truthy_type i); reflexivity.
      + rewrite andb_false_r. reflexivity. }
  unfold array_keyword. rewrite array_items_is, e. clear e.
  destruct (beq_spec _ k "items") as [->|n1]; [change (beq "items" "strDelimiter") with false; change (beq "items" "splitString") with false; change (beq "items" "uniqueItems") with false; change (beq "items" "maxItems") with false; change (beq "items" "minItems") with false; rewrite ?andb_false_r; reflexivity|].
  destruct (beq_spec _ k "minItems") as [->|n2]; [change (beq "minItems" "strDelimiter") with false; change (beq "minItems" "splitString") with false; change (beq "minItems" "uniqueItems") with false; change (beq "minItems" "maxItems") with false; rewrite ?andb_false_r; destruct (beq minI 0%Z); reflexivity|].
  destruct (beq_spec _ k "maxItems") as [->|n3]; [change (beq "maxItems" "strDelimiter") with false; change (beq "maxItems" "splitString") with false; change (beq "maxItems" "uniqueItems") with false; rewrite ?andb_false_r; destruct (beq maxI 0%Z); reflexivity|].
  destruct (beq_spec _ k "uniqueItems") as [->|n4]; [change (beq "uniqueItems" "strDelimiter") with false; change (beq "uniqueItems" "splitString") with false; rewrite ?andb_false_r; destruct unique; reflexivity|].
  destruct (beq_spec _ k "splitString") as [->|n5]; [change (beq "splitString" "strDelimiter") with false; rewrite ?andb_false_r; destruct split; reflexivity|].
  destruct (beq_spec _ k "strDelimiter") as [->|n6]; [rewrite ?andb_false_r; destruct split; cbn [andb]; rewrite ?andb_false_r; reflexivity|]. rewrite ?andb_false_r. reflexivity.
Qed.
(** an object shows its properties, each with the schema of the class of its type *)
Theorem object_shown : forall n c cls own required readOnly props additional k,
  dget k (show false (TObject n c cls own required readOnly props additional)) =
  match object_keyword required readOnly props additional k with Some v => Some v | None => given own cls k end.
Proof.
  intros. cbn [show andb]. rewrite !put_if_get, dget_dset, front_get, chain_get. unfold object_keyword.
  assert (ep : map (fun p : string * ty => let (k0, t') := p in (k0, SSchema (show true t'))) props = map (fun p => (fst p, SSchema (show true (snd p)))) props)
    by (apply map_ext; intros [? ?]; reflexivity).
  rewrite ep. clear ep.
  assert (cs : k = "type" \/ k = "required" \/ k = "readOnly" \/ k = "properties" \/ k = "additionalProperties" \/
    (k <> "type" /\ k <> "required" /\ k <> "readOnly" /\ k <> "properties" /\ k <> "additionalProperties")).
  { destruct (eq_dec k "type"); [tauto|]. destruct (eq_dec k "required"); [tauto|]. destruct (eq_dec k "readOnly"); [tauto|]. destruct (eq_dec k "properties"); [tauto|]. destruct (eq_dec k "additionalProperties"); tauto. }
  destruct cs as [->|[->|[->|[->|[->|(n1 & n2 & n3 & n4 & n5)]]]]].
  - change (beq "type" "additionalProperties") with false. change (beq "type" "properties") with false. change (beq "type" "readOnly") with false.
    change (beq "type" "required") with false. change (beq "type" "type") with true. rewrite !andb_false_r. reflexivity.
  - change (beq "required" "additionalProperties") with false. change (beq "required" "properties") with false. change (beq "required" "readOnly") with false.
    change (beq "required" "required") with true. change (beq "required" "type") with false. rewrite !andb_false_r, andb_true_r. destruct required; reflexivity.
  - change (beq "readOnly" "additionalProperties") with false. change (beq "readOnly" "properties") with false. change (beq "readOnly" "readOnly") with true.
    change (beq "readOnly" "required") with false. change (beq "readOnly" "type") with false. rewrite !andb_false_r, andb_true_r. destruct readOnly; reflexivity.
  - change (beq "properties" "additionalProperties") with false. change (beq "properties" "properties") with true. change (beq "properties" "readOnly") with false.
    change (beq "properties" "required") with false. change (beq "properties" "type") with false. rewrite !andb_false_r, andb_true_r. destruct props; reflexivity.
  - change (beq "additionalProperties" "additionalProperties") with true. change (beq "additionalProperties" "properties") with false. change (beq "additionalProperties" "readOnly") with false.
    change (beq "additionalProperties" "required") with false. change (beq "additionalProperties" "type") with false. rewrite !andb_false_r, andb_true_r. destruct additional; reflexivity.
  - rewrite !(proj2 (beq_false _ _ _)) by assumption. rewrite !andb_false_r. destruct (eq_dec k "type"); [contradiction|]. reflexivity.
Qed.

(** nothing is lost of the types made from schemas when their class is asked *)
Theorem built_shown : forall t, Built t -> show true t = show false t.
Proof.
  intros t [n cls|n b cls|n cls own l its a b u s d|n cls own r ro ps ad]; cbn [show]; [|reflexivity|reflexivity|reflexivity].
  f_equal. unfold chain. cbn [app dkeys map mem negb]. induction cls as [|x cls IH]; [reflexivity|]. cbn [filter]. f_equal. exact IH.
Qed.

(** the type comes first *)
Lemma front_first rs v : dget "type" rs = Some v -> exists rest, front rs = ("type", v) :: rest.
Proof. intros e. unfold front. rewrite e. eauto. Qed.
Lemma put_if_first b k v rs w rest : k <> "type" -> rs = ("type", w) :: rest -> exists rest', put_if b k v rs = ("type", w) :: rest'.
Proof. intros n ->. unfold put_if. destruct b; [|eauto]. cbn [dset]. destruct (eq_dec k "type"); [contradiction|]. eauto. Qed.
Theorem type_first : forall t w, dget "type" (show false t) = Some w ->
  (forall n c cls own r ro ps ad, t = TObject n c cls own r ro ps ad -> given own cls "type" <> None) -> exists rest, show false t = ("type", w) :: rest.
Proof.
  intros t w e ob. destruct t as [n cls own|n b cls|n c cls own l its mi ma u s d|n c cls own r ro ps ad].
  - cbn [show] in *. rewrite front_get in e. apply front_first. exact e.
  - cbn [show] in *. rewrite front_get in e. apply front_first. exact e.
  - assert (ec : dget "type" (chain own cls) = Some w).
    { rewrite array_shown in e. unfold array_keyword in e. change (beq "type" "items") with false in e. change (beq "type" "minItems") with false in e. change (beq "type" "maxItems") with false in e.
      change (beq "type" "uniqueItems") with false in e. change (beq "type" "splitString") with false in e. change (beq "type" "strDelimiter") with false in e. rewrite chain_get. exact e. }
    destruct (front_first _ _ ec) as (r0 & e0). cbn [show andb].
    assert (st : exists r, (if l then put_if (nonempty its) "items" (SListed (map (fun i => if is_type i then SSchema (show false i) else SItself (number i)) its)) (front (chain own cls))
       else match its, map (fun i => if is_type i then SSchema (show false i) else SItself (number i)) its with i :: _, r :: _ => put_if (truthy_type i) "items" r (front (chain own cls)) | _, _ => front (chain own cls) end) = ("type", w) :: r).
    { destruct l; [eapply put_if_first; [discriminate | exact e0]|]. destruct its as [|i its]; cbn [map]; [eauto|]. eapply put_if_first; [discriminate | exact e0]. }
    destruct st as (r1 & e1). destruct (put_if_first (negb (beq mi 0%Z)) "minItems" (SVal (VInt mi)) _ _ _ ltac:(discriminate) e1) as (r2 & e2).
    destruct (put_if_first (negb (beq ma 0%Z)) "maxItems" (SVal (VInt ma)) _ _ _ ltac:(discriminate) e2) as (r3 & e3).
    destruct (put_if_first u "uniqueItems" (SVal (VBool true)) _ _ _ ltac:(discriminate) e3) as (r4 & e4).
    destruct (put_if_first s "splitString" (SVal (VBool true)) _ _ _ ltac:(discriminate) e4) as (r5 & e5).
    exact (put_if_first s "strDelimiter" (SVal (VStr d)) _ _ _ ltac:(discriminate) e5).
  - rewrite object_shown in e. change (object_keyword r ro ps ad "type") with (Some (SVal (VStr "object"))) in e. cbn in e. injection e as <-.
    specialize (ob n c cls own r ro ps ad eq_refl). rewrite <- chain_get in ob. destruct (dget "type" (chain own cls)) as [v|] eqn:ec; [|congruence].
    destruct (front_first _ _ ec) as (r0 & e0). cbn [show andb].
    assert (e1 : dset "type" (SVal (VStr "object")) (front (chain own cls)) = ("type", SVal (VStr "object")) :: r0) by (rewrite e0; reflexivity).
    destruct (put_if_first (nonempty r) "required" (names r) _ _ _ ltac:(discriminate) e1) as (r2 & e2).
    destruct (put_if_first (nonempty ro) "readOnly" (names ro) _ _ _ ltac:(discriminate) e2) as (r3 & e3).
    destruct (put_if_first (nonempty ps) "properties" (SSchema (map (fun p : string * ty => let (k, t') := p in (k, SSchema (show true t'))) ps)) _ _ _ ltac:(discriminate) e3) as (r4 & e4).
    exact (put_if_first (negb ad) "additionalProperties" (SVal (VBool false)) _ _ _ ltac:(discriminate) e4).
Qed.

(** A keyword given to an instance of a scalar type is lost when the instance is given as the type of a property. *)
Theorem instance_property_refuted : forall n cls own k, dget k own <> None -> dget k cls = None -> dget "items" cls = None ->
  dget k (show false (TScalar n cls own)) <> None /\ exists s, property_schema (TScalar n cls own) = Ok s /\ dget k s = None.
Proof.
  intros n cls own k h1 h2 h3. split.
  - rewrite scalar_shown. unfold given. destruct (dget k own); congruence.
  - unfold property_schema. cbn [show]. rewrite !front_get, h3. exists (front cls). split; [destruct (dget "type" cls) as [[[]| | |]|]; reflexivity|]. rewrite front_get. exact h2.
Qed.
(** Of an object type given so, all is lost: any keys are accepted. *)
Theorem object_property_refuted : forall n cls own required readOnly props additional k, k <> "type" -> dget k cls = None -> dget "items" cls = None ->
  exists s, property_schema (TObject n false cls own required readOnly props additional) = Ok s /\ dget k s = None.
Proof.
  intros n cls own required readOnly props additional k nk h h3. unfold property_schema. cbn [show andb negb].
  exists (dset "type" (SVal (VStr "object")) (front cls)). rewrite !dget_dset, !front_get, h3.
  destruct (eq_dec "items" "type") as [q|_]; [discriminate q|]. destruct (eq_dec "type" "type") as [_|q]; [|congruence]. split; [reflexivity|].
  destruct (eq_dec k "type"); [contradiction|exact h].
Qed.
(** An array type given so cannot be used at all. *)
Theorem array_property_refuted : forall n cls own l items minI maxI unique split delim, dget "type" cls = Some (SVal (VStr "array")) ->
  property_schema (TArray n false cls own l items minI maxI unique split delim) = Err TypeError.
Proof.
  intros n cls own l items minI maxI unique split delim h. unfold property_schema. cbn [show andb negb]. rewrite !dget_dset, !front_get, h.
  destruct (eq_dec "type" "items") as [q|_]; [discriminate q|]. destruct (eq_dec "items" "items"); [reflexivity|congruence].
Qed.

(** A class or a constant as item type stands in the schema itself, which is then no JSON *)
Theorem bare_items_refuted : forall n c cls own i rest minI maxI unique split delim, item_shown i = SItself (number i) -> (forall m cls, i <> TConst m false cls) ->
  dget "items" (show false (TArray n c cls own false (i :: rest) minI maxI unique split delim)) = Some (SItself (number i)) /\
  ~ Plain (SSchema (show false (TArray n c cls own false (i :: rest) minI maxI unique split delim))).
Proof.
  intros n c cls own i rest minI maxI unique split delim h1 h2.
  assert (e : dget "items" (show false (TArray n c cls own false (i :: rest) minI maxI unique split delim)) = Some (SItself (number i))).
  { rewrite array_shown. unfold array_keyword. change (beq "items" "items") with true. cbn iota beta. rewrite <- h1.
    destruct i as [m cl ow|m [|] cl|m cc cl ow l its a b u s d|m cc cl ow r ro ps ad]; try reflexivity. exfalso. exact (h2 m cl eq_refl). }
  split; [exact e|]. intros h. inversion h as [|m hm|]; subst. apply dget_In in e. specialize (hm _ _ e). inversion hm.
Qed.
(** Without such item types the schema holds no type. *)
Lemma plain_filter f m : AllPlain m -> AllPlain (filter f m).
Proof. intros h k s i. apply filter_In in i. apply (h k). apply i. Qed.
Lemma plain_app a b : AllPlain a -> AllPlain b -> AllPlain (a ++ b).
Proof. intros h1 h2 k s i. apply in_app_or in i. destruct i as [i|i]; [apply (h1 k) | apply (h2 k)]; exact i. Qed.
Lemma in_dset k v (d : keywords) p : In p (dset k v d) -> p = (k, v) \/ In p d.
Proof.
  induction d as [|[x w] d IH]; cbn [dset]; [intros [<-|[]]; auto|]. destruct (eq_dec k x) as [->|n]; cbn [In].
  - intros [<-|i]; auto.
  - intros [<-|i]; [auto|]. destruct (IH i); auto.
Qed.
Lemma in_ddel k (d : keywords) p : In p (ddel k d) -> In p d.
Proof. induction d as [|[x w] d IH]; [intros []|]. cbn [ddel]. destruct (eq_dec k x); cbn [In]; [right; auto|]. intros [<-|i]; auto. Qed.
Lemma plain_put b k v m : Plain v -> AllPlain m -> AllPlain (put_if b k v m).
Proof. intros hv h x s i. unfold put_if in i. destruct b; [|apply (h x); exact i]. apply in_dset in i. destruct i as [e|i]; [injection e as _ ->; exact hv | apply (h x); exact i]. Qed.
Lemma plain_front m : AllPlain m -> AllPlain (front m).
Proof.
  intros h. unfold front. destruct (dget "type" m) eqn:e; [|exact h]. intros k x [q|i]; [injection q as <- <-; apply dget_In in e; apply (h "type"); exact e|].
  apply in_ddel in i. apply (h k). exact i.
Qed.
Lemma plain_names l : Plain (names l).
Proof. constructor. intros s i. apply in_map_iff in i. destruct i as (x & <- & _). constructor. Qed.
Lemma plain_chain own cls : AllPlain own -> AllPlain cls -> AllPlain (chain own cls).
Proof. intros h1 h2. apply plain_app; [exact h1 | apply plain_filter; exact h2]. Qed.
Theorem clean_shown : forall b t, Clean b t -> Plain (SSchema (show b t)).
Proof.
  fix IH 3. intros b t [b' n cls own h1 h2|b' n tr cls h|b' n c cls own l its mi ma u s d h1 h2 hb ht hi|b' n c cls own r ro ps ad h1 h2 hp]; constructor; cbn [show].
  - apply plain_front. destruct b'; [exact h1 | apply plain_chain; assumption].
  - apply plain_front. exact h.
  - assert (e : b' && negb c = false) by (destruct hb as [-> | ->]; [reflexivity | apply andb_false_r]). rewrite e.
    assert (hits : forall x, In x (map (fun i => if is_type i then SSchema (show false i) else SItself (number i)) its) -> Plain x).
    { intros x i. apply in_map_iff in i. destruct i as (y & <- & iy). destruct (ht y iy) as [m em]. rewrite item_shown_is in em. destruct (is_type y); [|discriminate em]. apply IH. apply hi. exact iy. }
    do 5 (apply plain_put; [constructor|]). destruct l.
    + apply plain_put; [constructor; exact hits | apply plain_front, plain_chain; assumption].
    + destruct its as [|i its]; cbn [map]; [apply plain_front, plain_chain; assumption|]. apply plain_put; [apply hits; left; reflexivity | apply plain_front, plain_chain; assumption].
  - destruct (b' && negb c).
    + apply (plain_put true); [constructor | apply plain_front; exact h1].
    + apply plain_put; [constructor|]. apply plain_put.
      { constructor. intros k x i. apply in_map_iff in i. destruct i as ([k' t'] & e & i). injection e as <- <-. apply IH. apply (hp k'). exact i. }
      apply plain_put; [apply plain_names|]. apply plain_put; [apply plain_names|].
      apply (plain_put true); [constructor | apply plain_front, plain_chain; assumption].
Qed.

(** ** cases *)
Definition string_class : keywords := [("type", SVal (VStr "string"))].
Definition short_text : ty := TScalar 1 string_class [("minLength", SVal (VInt 3))].
Definition array_class : keywords := [("type", SVal (VStr "array"))].
Definition texts : ty := TArray 2 false array_class [("title", SVal (VStr "texts"))] false [short_text] 5 0 true false ",".
Definition object_class : keywords := [("type", SVal (VStr "object"))].
Definition person : ty := TObject 3 true object_class [] ["name"] [] [("name", TScalar 4 (string_class ++ [("minLength", SVal (VInt 3))]) [])] false.
Example ex_texts : show false texts =
  [("type", SVal (VStr "array")); ("title", SVal (VStr "texts")); ("items", SSchema [("type", SVal (VStr "string")); ("minLength", SVal (VInt 3))]);
   ("minItems", SVal (VInt 5)); ("uniqueItems", SVal (VBool true))].
Proof. vm_compute. reflexivity. Qed.
Example ex_person : show true person = show false person /\ dget "properties" (show false person) =
  Some (SSchema [("name", SSchema [("type", SVal (VStr "string")); ("minLength", SVal (VInt 3))])]).
Proof. split; reflexivity. Qed.
Example ex_lost : property_schema short_text = Ok [("type", SVal (VStr "string"))].
Proof. reflexivity. Qed.
Example ex_lost_hypotheses : exists s, property_schema short_text = Ok s /\ dget "minLength" s = None.
Proof. apply (instance_property_refuted 1 string_class [("minLength", SVal (VInt 3))] "minLength"); [discriminate | reflexivity | reflexivity]. Qed.
Example ex_array_property : property_schema texts = Err TypeError.
Proof. apply array_property_refuted. reflexivity. Qed.
Example ex_bare : dget "items" (show false (TArray 5 false array_class [] false [person] 0 0 false false ",")) = Some (SItself 3).
Proof. apply bare_items_refuted; [reflexivity | discriminate]. Qed.
Example ex_clean : Clean false texts /\ Clean true person.
Proof.
  assert (p : forall k v, AllPlain [(k, SVal v)]) by (intros k v x s [e|[]]; injection e as _ <-; constructor).
  assert (q : AllPlain []) by (intros k s []).
  assert (p1 : AllPlain string_class) by apply p. assert (p2 : AllPlain array_class) by apply p. assert (p3 : AllPlain object_class) by apply p.
  split.
  - apply clean_array; auto; intros i [<-|[]]; [eexists; reflexivity | constructor; auto].
  - apply clean_object; auto. intros k t [e|[]]. injection e as _ <-. constructor; auto. intros x s [e|[e|[]]]; injection e as _ <-; constructor.
Qed.
Print Assumptions scalar_shown.
Print Assumptions array_shown.
Print Assumptions object_shown.
Print Assumptions built_shown.
Print Assumptions type_first.
Print Assumptions instance_property_refuted.
Print Assumptions object_property_refuted.
Print Assumptions array_property_refuted.
Print Assumptions bare_items_refuted.
Print Assumptions clean_shown.
