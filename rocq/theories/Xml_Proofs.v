From Verif Require Export Xml_Spec.
From Verif Require Import Types_Proofs.
Local Open Scope char_scope.
Local Open Scope list_scope.

Lemma xml_rect' (P : xml -> Prop) : (forall attrs first kids, (forall k, In k kids -> P (snd (fst k))) -> P (Xml attrs first kids)) -> forall x, P x.
Proof.
  intros h. fix IH 1. intros [attrs first kids]. apply h. induction kids as [|[[n x] t] kids IHk]; [intros k []|].
  intros k [<-|hk]; [apply IH|apply IHk; exact hk].
Qed.
Lemma elem_rect' (P : elem -> Prop) : (forall s, P (Leaf s)) ->
  (forall attrs kids text tail, (forall k es e, In (k, es) kids -> In e es -> P e) -> P (Elt attrs kids text tail)) -> forall e, P e.
Proof.
  intros h1 h2. fix IH 1. intros [s|attrs kids text tail]; [apply h1|]. apply h2.
  induction kids as [|[n es] kids IHk]; [intros k es e []|]. intros k es0 e [hk|hk]; [|exact (IHk k es0 e hk)].
  injection hk as _ <-. clear -IH. induction es as [|x es IHe]; [intros []|]. intros [<-|he]; [apply IH|apply IHe; exact he].
Qed.

(** * dictionaries *)
Lemma dset_new {V} k (v : V) (d : dict str V) : ~ In k (dkeys d) -> dset k v d = d ++ [(k, v)].
Proof.
  induction d as [|[a b] d IH]; simpl; intros h; [reflexivity|].
  destruct (eq_dec k a) as [->|n]; [exfalso; apply h; left; reflexivity|]. f_equal. apply IH. intro; apply h; right; assumption.
Qed.
Lemma dget_app_l {V} k (a b : dict str V) : ~ In k (dkeys a) -> dget k (a ++ b) = dget k b.
Proof.
  induction a as [|[x y] a IH]; simpl; intros h; [reflexivity|].
  destruct (eq_dec k x) as [->|n]; [exfalso; apply h; left; reflexivity|]. apply IH. intro; apply h; right; assumption.
Qed.
Lemma dset_app_l {V} k (v : V) (a b : dict str V) : ~ In k (dkeys a) -> dset k v (a ++ b) = a ++ dset k v b.
Proof.
  induction a as [|[x y] a IH]; simpl; intros h; [reflexivity|].
  destruct (eq_dec k x) as [->|n]; [exfalso; apply h; left; reflexivity|]. f_equal. apply IH. intro; apply h; right; assumption.
Qed.
Lemma dget_map_keys {V} (f : str -> V) ks k : dget k (map (fun x => (x, f x)) ks) = if mem k ks then Some (f k) else None.
Proof. induction ks as [|x ks IH]; simpl; [reflexivity|]. destruct (eq_dec k x) as [->|n]; [reflexivity|exact IH]. Qed.
Lemma dset_map_keys {V} (f : str -> V) ks k w : NoDup ks -> In k ks ->
  dset k w (map (fun x => (x, f x)) ks) = map (fun x => (x, if eq_dec x k then w else f x)) ks.
Proof.
  induction ks as [|x ks IH]; simpl; intros hn hi; [destruct hi|]. inversion hn; subst.
  destruct (eq_dec k x) as [->|n].
  - destruct (eq_dec x x); [|congruence]. f_equal. apply map_ext_in. intros y hy. destruct (eq_dec y x) as [->|]; [contradiction|reflexivity].
  - destruct (eq_dec x k) as [->|_]; [congruence|]. f_equal. apply IH; [assumption|]. destruct hi; [congruence|assumption].
Qed.
Lemma dedup_from_snoc (l : list str) x : forall seen, dedup_from seen (l ++ [x]) = dedup_from seen l ++ (if mem x seen || mem x l then [] else [x]).
Proof.
  induction l as [|y l IH]; intros seen; simpl.
  - rewrite orb_false_r. destruct (mem x seen); reflexivity.
  - destruct (mem_spec _ y seen) as [hy|hy]; rewrite IH.
    + f_equal. destruct (eq_dec x y) as [->|n]; [|reflexivity]. rewrite (proj2 (mem_In _ y seen) hy). reflexivity.
    + simpl. f_equal. f_equal. destruct (eq_dec x y); [rewrite orb_true_r|]; reflexivity.
Qed.
Lemma dedup_snoc (l : list str) x : dedup (l ++ [x]) = dedup l ++ (if mem x l then [] else [x]).
Proof. unfold dedup. rewrite dedup_from_snoc. reflexivity. Qed.

Section Force.
  Variable force : str -> bool.
  Notation push := (push_data force).
  Notation grouped := (grouped force).
  Notation one := (one force).
  Definition pushes (it : option (dict str xval)) (l : list (str * xval)) : option (dict str xval) :=
    fold_left (fun acc kv => Some (push acc (fst kv) (snd kv))) l it.
  Definition not_list (v : xval) : Prop := forall l, v <> XList l.

  Lemma filter_snoc_same (kids : list (str * xval)) k v : filter (fun kv => beq (fst kv) k) (kids ++ [(k, v)]) = filter (fun kv => beq (fst kv) k) kids ++ [(k, v)].
  Proof. rewrite filter_app. simpl. rewrite beq_refl. reflexivity. Qed.
  Lemma filter_snoc_other (kids : list (str * xval)) k k' v : k' <> k -> filter (fun kv => beq (fst kv) k') (kids ++ [(k, v)]) = filter (fun kv => beq (fst kv) k') kids.
  Proof. intros h. rewrite filter_app. simpl. destruct (beq_spec _ k k'); [congruence|]. apply app_nil_r. Qed.
  Lemma filter_absent (kids : list (str * xval)) k : ~ In k (map fst kids) -> filter (fun kv => beq (fst kv) k) kids = [].
  Proof.
    intros h. apply filter_none. intros [a b] hin. apply beq_false. simpl. intros ->. apply h. apply in_map_iff. exists (k, b). split; [reflexivity|exact hin].
  Qed.

  Lemma grouped_keys kids : dkeys (grouped kids) = dedup (map fst kids).
  Proof. unfold Xml_Spec.grouped, dkeys. rewrite map_map. simpl. apply map_id. Qed.
  Lemma grouped_snoc_new kids k v : ~ In k (map fst kids) -> grouped (kids ++ [(k, v)]) = grouped kids ++ [(k, one k [v])].
  Proof.
    intros h. unfold Xml_Spec.grouped. rewrite map_app. cbn [map fst]. rewrite dedup_snoc. rewrite (proj2 (mem_not_In _ k _) h).
    rewrite map_app. cbn [map]. rewrite filter_snoc_same, filter_absent by exact h. f_equal. apply map_ext_in. intros k' hk'. rewrite filter_snoc_other; [reflexivity|].
    intros ->. apply h. apply dedup_In in hk'. exact hk'.
  Qed.
  Lemma grouped_snoc_old kids k v : In k (map fst kids) ->
    grouped (kids ++ [(k, v)]) = dset k (XList (map snd (filter (fun kv => beq (fst kv) k) kids) ++ [v])) (grouped kids).
  Proof.
    intros h. unfold Xml_Spec.grouped. rewrite map_app. cbn [map fst]. rewrite dedup_snoc. rewrite (proj2 (mem_In _ k _) h), app_nil_r.
    rewrite dset_map_keys; [|apply dedup_NoDup|apply dedup_In; exact h].
    apply map_ext_in. intros k' hk'. f_equal. destruct (eq_dec k' k) as [->|n].
    - rewrite filter_snoc_same, map_app. cbn [map snd]. destruct (filter (fun kv => beq (fst kv) k) kids) as [|p [|q r]] eqn:e; [|reflexivity|reflexivity].
      exfalso. apply in_map_iff in h. destruct h as ([a b] & <- & hin). simpl in e.
      assert (hf : In (a, b) (filter (fun kv => beq (fst kv) a) kids)) by (apply filter_In; split; [exact hin|apply beq_refl]). rewrite e in hf. destruct hf.
    - rewrite filter_snoc_other by exact n. reflexivity.
  Qed.
  Lemma pushes_grouped d0 kids : (forall k, In k (map fst kids) -> ~ In k (dkeys d0)) -> (forall kv, In kv kids -> not_list (snd kv)) ->
    pushes (Some d0) kids = Some (d0 ++ grouped kids).
  Proof.
    induction kids as [|[k v] kids IH] using rev_ind; intros h1 h2; [simpl; rewrite app_nil_r; reflexivity|].
    unfold pushes in *. rewrite fold_left_app. rewrite IH.
    2:{ intros k' hk'. apply h1. rewrite map_app. apply in_app_iff. left. exact hk'. }
    2:{ intros kv hk'. apply h2. apply in_app_iff. left. exact hk'. }
    cbn [fold_left fst snd]. f_equal. unfold push_data.
    assert (hk : ~ In k (dkeys d0)) by (apply h1; rewrite map_app; apply in_app_iff; right; left; reflexivity).
    rewrite dget_app_l by exact hk.
    assert (hg : dget k (grouped kids) = if mem k (dedup (map fst kids)) then Some (one k (map snd (filter (fun kv => beq (fst kv) k) kids))) else None)
      by apply (dget_map_keys (fun k => one k (map snd (filter (fun kv => beq (fst kv) k) kids)))).
    rewrite hg. destruct (mem_spec _ k (dedup (map fst kids))) as [hin|hout].
    - apply dedup_In in hin. rewrite grouped_snoc_old by exact hin.
      destruct (filter (fun kv => beq (fst kv) k) kids) as [|[a x] [|q r]] eqn:e.
      + exfalso. apply in_map_iff in hin. destruct hin as ([a b] & <- & hin). simpl in e.
        assert (hf : In (a, b) (filter (fun kv => beq (fst kv) a) kids)) by (apply filter_In; split; [exact hin|apply beq_refl]). rewrite e in hf. destruct hf.
      + cbn [map snd app Xml_Spec.one].
        assert (hx : not_list x). { apply (h2 (a, x)). apply in_app_iff. left. eapply (proj1 (filter_In _ _ _)). rewrite e. left. reflexivity. }
        destruct (force k); [apply dset_app_l; exact hk|]. destruct x; try (apply dset_app_l; exact hk). destruct (hx l eq_refl).
      + apply dset_app_l; exact hk.
    - rewrite grouped_snoc_new by (intro; apply hout; apply dedup_In; assumption). rewrite dset_app_l by exact hk. f_equal.
      rewrite dset_new; [|rewrite grouped_keys; exact hout]. reflexivity.
  Qed.

  Lemma attr_entries_spec attrs : NoDup (map fst attrs) -> attr_entries attrs = attribute_entries attrs.
  Proof.
    intros hn. unfold attr_entries.
    assert (H : forall acc, (forall k, In k (map fst attrs) -> ~ In ("@" :: k) (dkeys acc)) ->
      fold_left (fun acc kv => dset ("@" :: fst kv) (XStr (snd kv)) acc) attrs acc = acc ++ attribute_entries attrs).
    { induction attrs as [|[k v] attrs IH]; intros acc h; simpl; [rewrite app_nil_r; reflexivity|].
      inversion hn; subst. rewrite dset_new by (apply h; left; reflexivity). rewrite IH; [rewrite <- app_assoc; reflexivity|assumption|].
      intros k' hk'. unfold dkeys. rewrite map_app. intros hin. apply in_app_iff in hin. destruct hin as [hin|[e|[]]].
      - apply (h k'); [right; exact hk'|exact hin].
      - simpl in e. injection e as e. subst k'. contradiction. }
    rewrite H; [reflexivity|]. intros k _ [].
  Qed.
  Lemma attribute_keys attrs k : In k (dkeys (attribute_entries attrs)) -> exists s, k = "@" :: s.
  Proof. unfold dkeys, attribute_entries. rewrite map_map. intros h. apply in_map_iff in h. destruct h as (kv & <- & _). eexists. reflexivity. Qed.

  Lemma value_not_list x : not_list (value_of force x).
  Proof. intros l. destruct x as [[|a attrs] first [|k kids]]; simpl; discriminate. Qed.

  Definition opt (s : str) : list str := match s with [] => [] | _ => [s] end.
  Lemma flush_eq b it ds st : flush {| p_buf := b; p_item := it; p_data := ds; p_stack := st |} =
    {| p_buf := []; p_item := it; p_data := ds ++ opt b; p_stack := st |}.
  Proof. unfold flush. simpl. destruct b; [rewrite app_nil_r|]; reflexivity. Qed.

  Notation run := (fold_left (handle force)).

  (** the dictionary finished at the end tag *)
  Definition finish (d : dict str xval) (texts : list str) : dict str xval :=
    d ++ text_entry force cdata_key (nth_error texts 0) ++ text_entry force tail_key (nth_error texts 1).
  Lemma push_new d k s : ~ In k (dkeys d) -> push (Some d) k (XStr s) = d ++ [(k, one k [XStr s])].
  Proof.
    intros h. unfold push_data. destruct (dget k d) eqn:e; [apply dget_Some_key in e; contradiction|].
    rewrite dset_new by exact h. reflexivity.
  Qed.
  Lemma end_some n ds d item0 data0 stack : ~ In cdata_key (dkeys d) -> ~ In tail_key (dkeys d) ->
    end_element force n {| p_buf := []; p_item := Some d; p_data := ds; p_stack := (item0, data0) :: stack |} =
    {| p_buf := []; p_item := Some (push item0 n (XDict (finish d (map (strip whitespace) ds)))); p_data := data0; p_stack := stack |}.
  Proof.
    intros h1 h2. unfold end_element. simpl. f_equal. f_equal. f_equal. f_equal. unfold finish.
    destruct (map (strip whitespace) ds) as [|t [|t2 r]]; simpl.
    - rewrite app_nil_r. reflexivity.
    - destruct t as [|c s]; simpl; [rewrite app_nil_r; reflexivity|]. rewrite push_new by exact h1. reflexivity.
    - assert (hd : forall s, ~ In tail_key (dkeys (d ++ [(cdata_key, one cdata_key [XStr s])]))).
      { intros s. unfold dkeys. rewrite map_app. intros hin. apply in_app_iff in hin. destruct hin as [hin|[e|[]]]; [contradiction|discriminate]. }
      destruct t as [|c s]; simpl; destruct t2 as [|c2 s2]; simpl; rewrite ?app_nil_r; try reflexivity.
      + rewrite push_new by exact h2. reflexivity.
      + rewrite push_new by exact h1. reflexivity.
      + rewrite (push_new d cdata_key) by exact h1. rewrite push_new by apply hd. rewrite <- app_assoc. reflexivity.
  Qed.
  Lemma end_none n ds item0 data0 stack :
    end_element force n {| p_buf := []; p_item := None; p_data := ds; p_stack := (item0, data0) :: stack |} =
    {| p_buf := []; p_item := Some (push item0 n (XStr (concat (map (strip whitespace) ds)))); p_data := data0; p_stack := stack |}.
  Proof. reflexivity. Qed.

  (** * parsing any document *)
  Lemma opt_filter b ts : opt b ++ filter not_empty ts = filter not_empty (b :: ts).
  Proof. destruct b; reflexivity. Qed.

  Lemma grouped_not_special kids k : (forall n, In n (map fst kids) -> TagName n) -> ~ TagName k -> ~ In k (dkeys (grouped kids)).
  Proof. intros h hk hin. rewrite grouped_keys in hin. apply dedup_In in hin. auto. Qed.
  Lemma special_not_tag : ~ TagName cdata_key /\ ~ TagName tail_key.
  Proof. split; intros (h1 & h2 & _); [apply h1|apply h2]; reflexivity. Qed.
  Lemma special_not_attr attrs : ~ In cdata_key (dkeys (attribute_entries attrs)) /\ ~ In tail_key (dkeys (attribute_entries attrs)).
  Proof. split; intros h; apply attribute_keys in h; destruct h as (s & e); discriminate. Qed.

  Lemma run_element x : XmlOk x -> forall n b it ds st,
    run (events n x) {| p_buf := b; p_item := it; p_data := ds; p_stack := st |} =
    {| p_buf := []; p_item := Some (push it n (value_of force x)); p_data := ds ++ opt b; p_stack := st |}.
  Proof.
    induction x as [attrs first kids IH] using xml_rect'. intros hok n b it ds st. inversion hok as [a f ks hn hk]; subst.
    cbn [events fold_left handle]. rewrite flush_eq. unfold start_element. cbn [p_buf p_item p_data p_stack app].
    rewrite fold_left_app. rewrite attr_entries_spec by exact hn.
    set (item0 := match attribute_entries attrs with [] => None | d => Some d end).
    set (st' := (it, ds ++ opt b) :: st).
    assert (K : forall kids, (forall k, In k kids -> forall n b it ds st, run (events n (snd (fst k))) {| p_buf := b; p_item := it; p_data := ds; p_stack := st |} =
                   {| p_buf := []; p_item := Some (push it n (value_of force (snd (fst k)))); p_data := ds ++ opt b; p_stack := st |}) ->
       forall s' b it ds, flush (run (flat_map (fun k => events (fst (fst k)) (snd (fst k)) ++ [Chars (snd k)]) kids) {| p_buf := b; p_item := it; p_data := ds; p_stack := s' |}) =
         {| p_buf := []; p_item := pushes it (map (fun k => (fst (fst k), value_of force (snd (fst k)))) kids); p_data := ds ++ filter not_empty (b :: map snd kids); p_stack := s' |}).
    { clear. induction kids as [|[[k x] t] kids IHk]; intros hI s' b it ds.
      - cbn [flat_map fold_left map pushes]. rewrite flush_eq. destruct b; reflexivity.
      - cbn [flat_map fst snd]. rewrite !fold_left_app. rewrite (hI (k, x, t)) by (left; reflexivity). cbn [fold_left handle p_buf p_item p_data p_stack app fst snd].
        rewrite IHk by (intros k' hk'; apply hI; right; exact hk'). cbn [map fst snd]. rewrite <- app_assoc, opt_filter. reflexivity. }
    cbn [fold_left handle]. rewrite K.
    2:{ intros k hin. apply IH; [exact hin|]. apply (hk k hin). }
    cbn [app]. clear K. set (texts := filter not_empty (first :: map snd kids)).
    set (vs := map (fun k => (fst (fst k), value_of force (snd (fst k)))) kids).
    assert (hvs : forall m, In m (map fst vs) -> TagName m).
    { intros m hm. unfold vs in hm. rewrite map_map in hm. apply in_map_iff in hm. destruct hm as (k & <- & hin). apply (hk k hin). }
    assert (hnl : forall kv, In kv vs -> not_list (snd kv)).
    { intros kv hin. apply in_map_iff in hin. destruct hin as (k & <- & _). apply value_not_list. }
    assert (hp : pushes item0 vs = match attrs, kids with [], [] => None | _, _ => Some (attribute_entries attrs ++ grouped vs) end).
    { destruct attrs as [|a attrs].
      - destruct kids as [|k kids]; [reflexivity|]. unfold item0. cbn [attribute_entries map].
        transitivity (pushes (Some []) vs); [reflexivity|]. rewrite pushes_grouped; [reflexivity|intros ? _ []|exact hnl].
      - unfold item0. cbn [attribute_entries map]. rewrite pushes_grouped; [reflexivity| |exact hnl].
        intros m hm hin. apply (attribute_keys (a :: attrs)) in hin. destruct hin as (s & e). apply (proj2 (proj2 (hvs m hm)) s e). }
    match goal with |- context [pushes ?i vs] => change (pushes i vs) with (pushes item0 vs) end. rewrite hp. unfold st'.
    assert (hfin : forall m, ~ TagName m -> ~ In m (dkeys (attribute_entries attrs)) -> ~ In m (dkeys (attribute_entries attrs ++ grouped vs))).
    { intros m h1 h2 hin. unfold dkeys in hin. rewrite map_app in hin. apply in_app_iff in hin. destruct hin as [hin|hin]; [contradiction|].
      revert hin. apply grouped_not_special; assumption. }
    destruct (special_not_attr attrs) as (ha1 & ha2). destruct special_not_tag as (ht1 & ht2).
    destruct attrs as [|a attrs]; [destruct kids as [|k kids]|].
    - rewrite end_none. reflexivity.
    - rewrite end_some; [|apply hfin; assumption..]. unfold finish. rewrite <- !app_assoc. reflexivity.
    - rewrite end_some; [|apply hfin; assumption..]. unfold finish. rewrite <- !app_assoc. reflexivity.
  Qed.
End Force.

(** * writing then reading *)
Lemma strip_around w1 s w2 : Blank w1 -> Blank w2 -> trimmed s -> strip whitespace (w1 ++ s ++ w2) = s.
Proof.
  intros h1 h2 hs.
  assert (L : forall w r, Blank w -> lstrip whitespace (w ++ r) = lstrip whitespace r).
  { induction w as [|x w IH]; intros r h; [reflexivity|]. change (lstrip whitespace ((x :: w) ++ r)) with (if mem x whitespace then lstrip whitespace (w ++ r) else (x :: w) ++ r). rewrite (proj2 (mem_In _ x whitespace)); [|apply h; left; reflexivity].
    apply IH. intros c hc. apply h. right. exact hc. }
  destruct s as [|c s].
  - simpl. unfold strip. rewrite L by exact h1. replace w2 with (w2 ++ []) by apply app_nil_r. rewrite L by exact h2. reflexivity.
  - unfold strip. rewrite L by exact h1. destruct hs as (hs1 & hs2).
    rewrite (lstrip_fix whitespace ((c :: s) ++ w2)).
    + rewrite rev_app_distr, L by (intros x hx; apply h2; apply in_rev; exact hx).
      rewrite lstrip_fix; [apply rev_involutive|]. intros x r e. apply (hs2 (rev r) x).
      apply (f_equal (@rev _)) in e. rewrite rev_involutive in e. exact e.
    + intros x r e. injection e as <- _. apply (hs1 c s). reflexivity.
Qed.
Lemma strip_blank w : Blank w -> strip whitespace w = [].
Proof.
  intros h. assert (H := strip_around w [] [] h (fun c (i : In c []) => match i with end)). simpl in H. rewrite app_nil_r in H. apply H.
  split; intros; [discriminate|destruct r; discriminate].
Qed.

Section Emit.
  Variable pretty : bool.
  Variables newl indent : str.
  Variable repr : xval -> str.
  Variable force : str -> bool.
  Hypothesis hnewl : Blank newl.
  Hypothesis hindent : Blank indent.
  Hypothesis hf1 : force cdata_key = false.
  Hypothesis hf2 : force tail_key = false.
  Notation emit_one := (emit_one pretty newl indent repr).
  Notation attrs_of := (attrs_of repr).
  Notation element := (element pretty newl indent).
  Notation run := (fold_left (handle force)).
  Notation push := (push_data force).
  Notation form := (form force).

  Definition emit_each (depth : nat) (k : str) : list xval -> res (list event) :=
    fix each (xs : list xval) := match xs with [] => Ok [] | y :: xs' => do a <- emit_one (S depth) k y; do b <- each xs'; Ok (a ++ b) end.
  Definition emit_kids (depth : nat) : dict str xval -> res (list event) :=
    fix kids (l : dict str xval) :=
      match l with
      | [] => Ok []
      | (k, x) :: l' =>
          if is_child k then
            do a <- match x with XList xs => emit_each depth k xs | _ => emit_one (S depth) k x end; do b <- kids l'; Ok (a ++ b)
          else kids l'
      end.
  Lemma emit_dict depth key l : emit_one depth key (XDict l) =
    element depth key (attrs_of l []) (dget cdata_key l) (dget tail_key l) (existsb (fun kv => is_child (fst kv)) l) (emit_kids depth l).
  Proof. reflexivity. Qed.

  (** ** the parts of a dictionary *)
  Lemma tag_is_child k : TagName k -> is_child k = true /\ is_attr k = false.
  Proof.
    intros (h1 & h2 & h3). assert (ha : is_attr k = false).
    { destruct k as [|c s]; [reflexivity|]. simpl. apply beq_false. intros ->. exact (h3 s eq_refl). }
    split; [|exact ha]. unfold is_child. rewrite ha. rewrite (proj2 (beq_false _ k cdata_key) h1), (proj2 (beq_false _ k tail_key) h2). reflexivity.
  Qed.
  Lemma attrs_of_skip l acc : (forall kv, In kv l -> beq (fst kv) cdata_key || beq (fst kv) tail_key || negb (is_attr (fst kv)) = true) -> attrs_of l acc = acc.
  Proof.
    induction l as [|[k v] l IH]; intros h; [reflexivity|]. simpl. assert (e := h (k, v) (or_introl eq_refl)). simpl in e. rewrite e.
    apply IH. intros kv hin. apply h. right. exact hin.
  Qed.
  Lemma attrs_of_entries attrs rest : NoDup (map fst attrs) -> forall acc, (forall k, In k (map fst attrs) -> ~ In k (dkeys acc)) ->
    attrs_of (attribute_entries attrs ++ rest) acc = attrs_of rest (acc ++ attrs).
  Proof.
    induction attrs as [|[k v] attrs IH]; intros hn acc h; [simpl; rewrite app_nil_r; reflexivity|].
    inversion hn; subst. simpl. rewrite dset_new by (apply h; left; reflexivity).
    rewrite IH; [rewrite <- app_assoc; reflexivity|assumption|].
    intros k' hk' hin. unfold dkeys in hin. rewrite map_app in hin. apply in_app_iff in hin. destruct hin as [hin|[e|[]]].
    - apply (h k'); [right; exact hk'|exact hin].
    - simpl in e. subst k'. contradiction.
  Qed.
  Lemma kids_app depth a b : (forall kv, In kv a -> is_child (fst kv) = false) -> emit_kids depth (a ++ b) = emit_kids depth b.
  Proof.
    induction a as [|[k v] a IH]; intros h; [reflexivity|]. simpl. assert (e := h (k, v) (or_introl eq_refl)). simpl in e. rewrite e.
    apply IH. intros kv hin. apply h. right. exact hin.
  Qed.
  Lemma kids_tail depth a b : (forall kv, In kv b -> is_child (fst kv) = false) -> emit_kids depth (a ++ b) = emit_kids depth a.
  Proof.
    intros h. induction a as [|[k v] a IH]; simpl.
    - rewrite <- (app_nil_r b). rewrite kids_app by exact h. reflexivity.
    - rewrite IH. reflexivity.
  Qed.

  Definition lead (depth : nat) : str := if pretty then repeat_text depth indent else [].
  Definition post (depth : nat) : str := if pretty && negb (Nat.eqb depth 0) then newl else [].
  Lemma blank_app a b : Blank a -> Blank b -> Blank (a ++ b).
  Proof. intros ha hb c hc. apply in_app_iff in hc. destruct hc; auto. Qed.
  Lemma blank_nil : Blank [].
  Proof. intros c []. Qed.
  Lemma blank_lead depth : Blank (lead depth).
  Proof. unfold lead. destruct pretty; [|apply blank_nil]. induction depth; simpl; [apply blank_nil|apply blank_app; assumption]. Qed.
  Lemma blank_post depth : Blank (post depth).
  Proof. unfold post. destruct (pretty && _); [exact hnewl|apply blank_nil]. Qed.

  (** the effect of the events of one element *)
  Definition Effect (depth : nat) (key : str) (v : xval) : Prop :=
    exists evs, emit_one depth key v = Ok evs /\ forall b it ds st,
      run evs {| p_buf := b; p_item := it; p_data := ds; p_stack := st |} =
      {| p_buf := post depth; p_item := Some (push it key v); p_data := ds ++ opt (b ++ lead depth); p_stack := st |}.

  Definition kid_step (depth : nat) (st : pstate) (kv : str * xval) : pstate :=
    {| p_buf := post (S depth); p_item := Some (push (p_item st) (fst kv) (snd kv)); p_data := p_data st ++ opt (p_buf st ++ lead (S depth)); p_stack := p_stack st |}.

  Lemma each_effect depth k vs : (forall v, In v vs -> Effect (S depth) k v) ->
    exists evs, emit_each depth k vs = Ok evs /\ forall st, run evs st = fold_left (kid_step depth) (map (fun v => (k, v)) vs) st.
  Proof.
    induction vs as [|v vs IH]; intros h; [exists []; split; reflexivity|].
    destruct (h v (or_introl eq_refl)) as (e1 & h1 & r1). destruct IH as (e2 & h2 & r2); [intros w hw; apply h; right; exact hw|].
    exists (e1 ++ e2). simpl. rewrite h1. simpl. rewrite h2. split; [reflexivity|]. intros [b it ds st]. rewrite fold_left_app, r1, r2. reflexivity.
  Qed.
  Lemma value_effect depth k vs : vs <> [] -> (forall v, In v vs -> not_list v) -> (forall v, In v vs -> Effect (S depth) k v) ->
    exists evs, (match one force k vs with XList xs => emit_each depth k xs | _ => emit_one (S depth) k (one force k vs) end) = Ok evs /\
      forall st, run evs st = fold_left (kid_step depth) (map (fun v => (k, v)) vs) st.
  Proof.
    intros hne hnl h. destruct vs as [|v [|w vs]]; [congruence| |apply each_effect; exact h].
    simpl one. destruct (force k); [apply each_effect; exact h|].
    destruct (h v (or_introl eq_refl)) as (e1 & h1 & r1).
    assert (e : (match v with XList xs => emit_each depth k xs | _ => emit_one (S depth) k v end) = emit_one (S depth) k v).
    { destruct v; try reflexivity. destruct (hnl _ (or_introl eq_refl) l eq_refl). }
    rewrite e. exists e1. split; [exact h1|]. intros [b it ds st]. rewrite r1. reflexivity.
  Qed.
  Lemma form_not_list e : not_list (form e).
  Proof. intros l. destruct e; discriminate. Qed.
  Definition flat (kids : list (str * list elem)) : list (str * xval) := flat_map (fun k => map (fun v => (fst k, v)) (map form (snd k))) kids.
  Lemma kids_effect depth kids : (forall k es, In (k, es) kids -> TagName k /\ es <> [] /\ forall e, In e es -> Effect (S depth) k (form e)) ->
    exists evs, emit_kids depth (map (fun k => (fst k, one force (fst k) (map form (snd k)))) kids) = Ok evs /\
      forall st, run evs st = fold_left (kid_step depth) (flat kids) st.
  Proof.
    induction kids as [|[k es] kids IH]; intros h; [exists []; split; reflexivity|].
    destruct (h k es (or_introl eq_refl)) as (ht & hne & he).
    destruct (value_effect depth k (map form es)) as (e1 & h1 & r1).
    { destruct es; [congruence|discriminate]. }
    { intros v hv. apply in_map_iff in hv. destruct hv as (e & <- & _). apply form_not_list. }
    { intros v hv. apply in_map_iff in hv. destruct hv as (e & <- & hin). apply he. exact hin. }
    destruct IH as (e2 & h2 & r2); [intros k' es' hin; apply (h k' es'); right; exact hin|].
    exists (e1 ++ e2). cbn [map fst snd emit_kids]. rewrite (proj1 (tag_is_child k ht)). fold (emit_kids depth). rewrite h1. simpl rbind. rewrite h2. simpl rbind.
    split; [reflexivity|]. intros st. cbn [flat flat_map fst snd]. rewrite !fold_left_app, r1, r2. reflexivity.
  Qed.

  Lemma kid_steps_data depth fl : forall b it ds st, fl <> [] ->
    fold_left (kid_step depth) fl {| p_buf := b; p_item := it; p_data := ds; p_stack := st |} =
    {| p_buf := post (S depth); p_item := pushes force it fl; p_data := ds ++ opt (b ++ lead (S depth)) ++ concat (repeat (opt (post (S depth) ++ lead (S depth))) (length fl - 1)); p_stack := st |}.
  Proof.
    induction fl as [|[k v] fl IH]; intros b it ds st hne; [congruence|]. destruct fl as [|kv fl].
    - simpl. rewrite app_nil_r. reflexivity.
    - change (fold_left (kid_step depth) ((k, v) :: kv :: fl)) with (fun s => fold_left (kid_step depth) (kv :: fl) (kid_step depth s (k, v))). cbn beta.
      unfold kid_step at 2. cbn [p_buf p_item p_data p_stack fst snd]. rewrite IH by discriminate.
      cbn [length Nat.sub pushes fold_left fst snd]. rewrite Nat.sub_0_r. cbn [repeat concat]. rewrite <- !app_assoc. reflexivity.
  Qed.

  Lemma flat_names kids k : In k (map fst (flat kids)) -> In k (map fst kids).
  Proof.
    intros h. apply in_map_iff in h. destruct h as ([a v] & <- & h). apply in_flat_map in h. destruct h as ([k es] & hin & h).
    apply in_map_iff in h. destruct h as (w & e & _). injection e as <- <-. apply in_map_iff. exists (k, es). split; [reflexivity|exact hin].
  Qed.
  Lemma filter_same_key k vs : filter (fun kv : str * xval => beq (fst kv) k) (map (fun v => (k, v)) vs) = map (fun v => (k, v)) vs.
  Proof. induction vs as [|v vs IH]; simpl; [reflexivity|]. rewrite beq_refl. f_equal. exact IH. Qed.
  Lemma filter_other_key k k' vs : k' <> k -> filter (fun kv : str * xval => beq (fst kv) k) (map (fun v => (k', v)) vs) = [].
  Proof. intros h. induction vs as [|v vs IH]; simpl; [reflexivity|]. rewrite (proj2 (beq_false _ k' k) h). exact IH. Qed.
  Lemma map_fst_pair (k : str) (vs : list xval) : map fst (map (fun v : xval => (k, v)) vs) = repeat k (length vs).
  Proof. induction vs as [|v vs IH]; simpl; [reflexivity|]. f_equal. exact IH. Qed.
  Lemma dedup_from_repeat (k : str) n rest : forall seen, In k seen -> dedup_from seen (repeat k n ++ rest) = dedup_from seen rest.
  Proof. induction n as [|n IH]; intros seen h; simpl; [reflexivity|]. rewrite (proj2 (mem_In _ k seen) h). apply IH. exact h. Qed.
  Lemma dedup_flat kids : NoDup (map fst kids) -> (forall k es, In (k, es) kids -> es <> []) ->
    forall seen, (forall k, In k seen -> ~ In k (map fst kids)) -> dedup_from seen (map fst (flat kids)) = map fst kids.
  Proof.
    induction kids as [|[k es] kids IH]; intros hn he seen hs; [reflexivity|]. inversion hn; subst.
    cbn [flat flat_map fst snd]. rewrite map_app, map_fst_pair. rewrite map_length.
    assert (hes : es <> []) by (apply (he k es); left; reflexivity). destruct es as [|e es]; [congruence|].
    cbn [length repeat app dedup_from]. rewrite (proj2 (mem_not_In _ k seen)) by (intro hin; apply (hs k hin); left; reflexivity).
    rewrite dedup_from_repeat by (left; reflexivity). cbn [map fst]. f_equal. apply IH; [assumption|intros k' es' hin; apply (he k' es'); right; exact hin|].
    intros k' [<-|hin] hk'; [contradiction|]. apply (hs k' hin). right. exact hk'.
  Qed.
  Lemma filter_flat kids k es : NoDup (map fst kids) -> In (k, es) kids -> filter (fun kv => beq (fst kv) k) (flat kids) = map (fun v => (k, v)) (map form es).
  Proof.
    induction kids as [|[k' es'] kids IH]; intros hn hin; [destruct hin|]. inversion hn; subst. cbn [flat flat_map fst snd]. rewrite filter_app.
    destruct hin as [e|hin].
    - injection e as <- <-. rewrite filter_same_key. fold (flat kids). rewrite filter_absent; [apply app_nil_r|]. intro h. apply flat_names in h. contradiction.
    - rewrite filter_other_key; [apply IH; assumption|]. intros ->. apply H1. apply in_map_iff. exists (k, es). split; [reflexivity|exact hin].
  Qed.
  Lemma grouped_flat kids : NoDup (map fst kids) -> (forall k es, In (k, es) kids -> es <> []) ->
    grouped force (flat kids) = map (fun k => (fst k, one force (fst k) (map form (snd k)))) kids.
  Proof.
    intros hn he. unfold grouped. unfold dedup. rewrite dedup_flat by (assumption || (intros ? [])).
    rewrite map_map. apply map_ext_in. intros [k es] hin. cbn [fst snd]. rewrite (filter_flat kids k es) by assumption.
    f_equal. f_equal. rewrite map_map. cbn [snd]. apply map_id.
  Qed.

  Lemma nth_blank ts key i : (forall t, In t ts -> t = []) -> text_entry force key (nth_error ts i) = [].
  Proof. intros h. destruct (nth_error ts i) as [t|] eqn:e; [|reflexivity]. rewrite (h t); [reflexivity|]. eapply nth_error_In. exact e. Qed.

  Lemma text_get key t rest d : ~ In key (dkeys d) -> force key = false -> ~ In key (dkeys rest) ->
    text_events (dget key (d ++ text_entry force key (Some t) ++ rest)) = Ok (match t with [] => [] | _ => [Chars t] end).
  Proof.
    intros h hf hr. rewrite dget_app_l by exact h. destruct t as [|c s]; simpl.
    - destruct (dget key rest) eqn:e; [apply dget_Some_key in e; contradiction|reflexivity].
    - destruct (eq_dec key key); [|congruence]. rewrite hf. reflexivity.
  Qed.

  Lemma opt_not_empty (t : str) : match t with [] => @nil event | _ => [Chars t] end = map Chars (opt t).
  Proof. destruct t; reflexivity. Qed.
  Lemma run_opt t b it ds st : run (map Chars (opt t)) {| p_buf := b; p_item := it; p_data := ds; p_stack := st |} =
    {| p_buf := b ++ t; p_item := it; p_data := ds; p_stack := st |}.
  Proof. destruct t; simpl; [rewrite app_nil_r|]; reflexivity. Qed.
  Lemma run_lead depth b it ds st : run (if pretty then [Chars (repeat_text depth indent)] else []) {| p_buf := b; p_item := it; p_data := ds; p_stack := st |} =
    {| p_buf := b ++ lead depth; p_item := it; p_data := ds; p_stack := st |}.
  Proof. unfold lead. destruct pretty; simpl; [reflexivity|]. rewrite app_nil_r. reflexivity. Qed.
  Lemma run_post depth it ds st : run (if pretty && negb (Nat.eqb depth 0) then [Chars newl] else []) {| p_buf := []; p_item := it; p_data := ds; p_stack := st |} =
    {| p_buf := post depth; p_item := it; p_data := ds; p_stack := st |}.
  Proof. unfold post. destruct (pretty && _); reflexivity. Qed.

  Lemma finish_texts d text tail ds :
    (forall i, nth_error (map (strip whitespace) ds) 0 = Some i -> i = text) -> (map (strip whitespace) ds = [] -> text = []) ->
    (forall i, nth_error (map (strip whitespace) ds) 1 = Some i -> i = tail) -> (nth_error (map (strip whitespace) ds) 1 = None -> tail = []) ->
    finish force d (map (strip whitespace) ds) = d ++ text_entry force cdata_key (Some text) ++ text_entry force tail_key (Some tail).
  Proof.
    intros h1 h2 h3 h4. unfold finish. f_equal. f_equal.
    - destruct (nth_error (map (strip whitespace) ds) 0) as [t|] eqn:e; [rewrite (h1 t eq_refl); reflexivity|].
      rewrite h2; [reflexivity|]. destruct (map (strip whitespace) ds); [reflexivity|discriminate].
    - destruct (nth_error (map (strip whitespace) ds) 1) as [t|] eqn:e; [rewrite (h3 t eq_refl); reflexivity|]. rewrite h4; reflexivity.
  Qed.

  Lemma strip_opt t : trimmed t -> map (strip whitespace) (opt t) = opt t.
  Proof. intros h. destruct t; [reflexivity|]. cbn [opt map]. rewrite trimmed_strip by exact h. reflexivity. Qed.
  Lemma finish_plain d text tail : trimmed text -> trimmed tail -> (tail <> [] -> text <> []) ->
    finish force d (map (strip whitespace) (opt text ++ opt tail)) = d ++ text_entry force cdata_key (Some text) ++ text_entry force tail_key (Some tail).
  Proof.
    intros h1 h2 h3. rewrite map_app, !strip_opt by assumption. unfold finish.
    destruct text as [|c s]; destruct tail as [|c2 s2]; try reflexivity. exfalso. apply h3; [discriminate|reflexivity].
  Qed.
  Lemma finish_blank d text w1 w2 rest : trimmed text -> Blank w1 -> Blank w2 -> (forall r, In r rest -> Blank r) ->
    finish force d (map (strip whitespace) (opt (w1 ++ text ++ w2) ++ rest)) = d ++ text_entry force cdata_key (Some text) ++ [].
  Proof.
    intros h1 h2 h3 h4. unfold finish. rewrite map_app.
    assert (hr : forall t, In t (map (strip whitespace) rest) -> t = []).
    { intros t ht. apply in_map_iff in ht. destruct ht as (r & <- & hr). apply strip_blank. apply h4. exact hr. }
    destruct (w1 ++ text ++ w2) as [|c s] eqn:e.
    - assert (text = []) by (destruct text; [reflexivity|]; destruct w1; discriminate). subst text. cbn [opt map app].
      rewrite !nth_blank by exact hr. reflexivity.
    - cbn [opt map app]. rewrite <- e, strip_around by assumption. change (nth_error (text :: map (strip whitespace) rest) 0) with (Some text). change (nth_error (text :: map (strip whitespace) rest) 1) with (nth_error (map (strip whitespace) rest) 0). rewrite nth_blank by exact hr. reflexivity.
  Qed.

  Lemma elem_effect e : ElemOk pretty e -> forall depth key, Effect depth key (form e).
  Proof.
    induction e as [s|attrs kids text tail IH] using elem_rect'; intros hok depth key.
    - inversion hok as [s' hs|]; subst. eexists. split; [reflexivity|]. intros b it ds st.
      rewrite !fold_left_app. rewrite run_lead. cbn [andb]. rewrite andb_false_r. cbn [app fold_left handle].
      rewrite flush_eq. unfold start_element. cbn [p_buf p_item p_data p_stack app attr_entries fold_left]. rewrite flush_eq. cbn [app].
      rewrite end_none. rewrite run_post. rewrite strip_opt by exact hs. f_equal. f_equal. f_equal. destruct s; [reflexivity|]. simpl. rewrite app_nil_r. reflexivity.
    - inversion hok as [|a k t tl hn1 hn2 hne hk ht htl htail]; subst. cbn [Xml_Spec.form].
      set (A := attribute_entries attrs). set (K := map (fun k => (fst k, one force (fst k) (map form (snd k)))) kids).
      change (chars "#text") with cdata_key. change (chars "#tail") with tail_key. set (T := text_entry force cdata_key (Some text)). set (T2 := text_entry force tail_key (Some tail)).
      assert (hK : forall kv, In kv K -> TagName (fst kv)).
      { intros kv hin. apply in_map_iff in hin. destruct hin as ([k es] & <- & hin). apply (hk k es hin). }
      assert (hT : forall kv, In kv T -> fst kv = cdata_key) by (unfold T; destruct text; simpl; [intros ? []|intros kv [<-|[]]; reflexivity]).
      assert (hT2 : forall kv, In kv T2 -> fst kv = tail_key) by (unfold T2; destruct tail; simpl; [intros ? []|intros kv [<-|[]]; reflexivity]).
      assert (eA : attrs_of (A ++ K ++ T ++ T2) [] = attrs).
      { unfold A. rewrite attrs_of_entries; [|exact hn1|intros ? _ []]. cbn [app]. apply attrs_of_skip. intros kv hin.
        apply in_app_iff in hin. destruct hin as [hin|hin].
        - rewrite (proj2 (tag_is_child _ (hK kv hin))). apply orb_true_r.
        - apply in_app_iff in hin. destruct hin as [hin|hin]; [rewrite (hT kv hin)|rewrite (hT2 kv hin)]; reflexivity. }
      assert (sA : ~ In cdata_key (dkeys A) /\ ~ In tail_key (dkeys A)) by apply special_not_attr.
      assert (sK : forall k, ~ TagName k -> ~ In k (dkeys K)).
      { intros k hnt hin. apply in_map_iff in hin. destruct hin as (kv & <- & hin). apply hnt. apply hK. exact hin. }
      destruct special_not_tag as (nt1 & nt2).
      assert (eT : text_events (dget cdata_key (A ++ K ++ T ++ T2)) = Ok (map Chars (opt text))).
      { rewrite app_assoc. unfold T. rewrite text_get; [rewrite opt_not_empty; reflexivity| |exact hf1|].
        - unfold dkeys. rewrite map_app. intros hin. apply in_app_iff in hin. destruct hin as [hin|hin]; [apply (proj1 sA); exact hin|apply (sK _ nt1); exact hin].
        - intros hin. apply in_map_iff in hin. destruct hin as (kv & e & hin). rewrite (hT2 kv hin) in e. discriminate. }
      assert (eT2 : text_events (dget tail_key (A ++ K ++ T ++ T2)) = Ok (map Chars (opt tail))).
      { rewrite !app_assoc. rewrite <- (app_nil_r T2). unfold T2. rewrite text_get; [rewrite opt_not_empty; reflexivity| |exact hf2|intros []].
        unfold dkeys. rewrite !map_app. intros hin. apply in_app_iff in hin. destruct hin as [hin|hin].
        - apply in_app_iff in hin. destruct hin as [hin|hin]; [apply (proj2 sA); exact hin|apply (sK _ nt2); exact hin].
        - apply in_map_iff in hin. destruct hin as (kv & e & hin). rewrite (hT kv hin) in e. discriminate. }
      assert (eC : existsb (fun kv => is_child (fst kv)) (A ++ K ++ T ++ T2) = match kids with [] => false | _ => true end).
      { rewrite !existsb_app.
        assert (e1 : existsb (fun kv : str * xval => is_child (fst kv)) A = false) by (unfold A; clear; induction attrs as [|x l IH]; [reflexivity|exact IH]).
        assert (e2 : existsb (fun kv : str * xval => is_child (fst kv)) T = false) by (unfold T; destruct text; reflexivity).
        assert (e3 : existsb (fun kv : str * xval => is_child (fst kv)) T2 = false) by (unfold T2; destruct tail; reflexivity).
        rewrite e1, e2, e3. destruct kids as [|[k es] kids]; [reflexivity|]. cbn [map K existsb fst]. unfold K. cbn [map existsb fst].
        rewrite (proj1 (tag_is_child k (proj1 (hk k es (or_introl eq_refl))))). reflexivity. }
      destruct (kids_effect depth kids) as (ke & hke & rke).
      { intros k es hin. destruct (hk k es hin) as (h1 & h2 & h3). split; [exact h1|]. split; [exact h2|]. intros e he. apply (IH k es e hin he). apply h3. exact he. }
      assert (eK : emit_kids depth (A ++ K ++ T ++ T2) = Ok ke).
      { rewrite kids_app.
        - rewrite kids_tail; [exact hke|]. intros kv hin. apply in_app_iff in hin. destruct hin as [hin|hin]; [rewrite (hT kv hin)|rewrite (hT2 kv hin)]; reflexivity.
        - intros kv hin. unfold A in hin. apply in_map_iff in hin. destruct hin as (x & <- & _). reflexivity. }
      assert (hp : pushes force (match A with [] => None | p :: l => Some (p :: l) end) (flat kids) = Some (A ++ K)).
      { assert (hg : grouped force (flat kids) = K) by (apply grouped_flat; [exact hn2|intros k es hin; apply (hk k es hin)]).
        assert (hnl : forall kv, In kv (flat kids) -> not_list (snd kv)).
        { intros kv hin. apply in_flat_map in hin. destruct hin as (k & _ & hin). apply in_map_iff in hin. destruct hin as (v & <- & hv).
          apply in_map_iff in hv. destruct hv as (e & <- & _). apply form_not_list. }
        assert (hA : forall k, In k (map fst (flat kids)) -> ~ In k (dkeys A)).
        { intros k h hin. apply flat_names in h. apply in_map_iff in h. destruct h as ([k' es] & <- & h). apply attribute_keys in hin. destruct hin as (s & e).
          destruct (hk k' es h) as ((_ & _ & h3) & _). exact (h3 s e). }
        rewrite <- hg. rewrite <- pushes_grouped by assumption. unfold A. destruct attrs as [|x l]; [|reflexivity].
        destruct kids as [|[k es] kids]; [destruct hne; congruence|]. destruct es as [|e es]; [destruct (hk k [] (or_introl eq_refl)) as (_ & h & _); congruence|]. reflexivity. }
      exists ((if pretty then [Chars (repeat_text depth indent)] else []) ++ [Start key attrs] ++
              (if pretty && match kids with [] => false | _ => true end then [Chars newl] else []) ++ map Chars (opt text) ++ ke ++
              (if pretty && match kids with [] => false | _ => true end then [Chars (repeat_text depth indent)] else []) ++ map Chars (opt tail) ++ [End key] ++
              (if pretty && negb (Nat.eqb depth 0) then [Chars newl] else [])).
      split.
      { rewrite emit_dict, eA, eC. unfold Xml_Model.element. rewrite eT, eT2. rewrite eK. reflexivity. }
      intros b it ds st. rewrite !fold_left_app. rewrite run_lead. cbn [fold_left handle]. rewrite flush_eq. unfold start_element. cbn [p_buf p_item p_data p_stack].
      rewrite attr_entries_spec by exact hn1. fold A.
      destruct kids as [|kk kids'].
      + (* no child *)
        rewrite andb_false_r. cbn [fold_left]. rewrite run_opt, rke. cbn [flat flat_map fold_left]. rewrite run_opt.
        assert (tail = []) by (destruct tail; [reflexivity|]; destruct htail as (_ & h & _); [discriminate|congruence]). subst tail. rewrite flush_eq.
        cbn [pushes fold_left flat flat_map] in hp. rewrite hp. rewrite end_some.
        * rewrite run_post. cbn [app]. rewrite (app_nil_r text).
          replace (opt text) with (opt text ++ opt []) by apply app_nil_r. rewrite finish_plain; [|exact ht|exact htl|congruence]. rewrite <- !app_assoc. reflexivity.
        * cbn [K map]. rewrite app_nil_r. apply sA.
        * cbn [K map]. rewrite app_nil_r. apply sA.
      + (* some children *)
        rewrite andb_true_r.
        assert (hfl : flat (kk :: kids') <> []).
        { destruct kk as [k es]. destruct (hk k es (or_introl eq_refl)) as (_ & h & _). destruct es; [congruence|discriminate]. }
        assert (r0 : run (if pretty then [Chars newl] else []) {| p_buf := []; p_item := match A with [] => None | p :: l => Some (p :: l) end; p_data := []; p_stack := (it, ds ++ opt (b ++ lead depth)) :: st |}
                   = {| p_buf := post (S depth); p_item := match A with [] => None | p :: l => Some (p :: l) end; p_data := []; p_stack := (it, ds ++ opt (b ++ lead depth)) :: st |}).
        { unfold post. simpl. destruct pretty; reflexivity. }
        match goal with |- context [fold_left _ (if pretty then [Chars newl] else []) ?s] => change s with {| p_buf := []; p_item := match A with [] => None | p :: l => Some (p :: l) end; p_data := []; p_stack := (it, ds ++ opt (b ++ lead depth)) :: st |} end.
        rewrite r0, run_opt, rke, kid_steps_data by exact hfl. rewrite hp, run_lead, run_opt, flush_eq. cbn [app].
        assert (hAK : ~ In cdata_key (dkeys (A ++ K)) /\ ~ In tail_key (dkeys (A ++ K))).
        { unfold dkeys. rewrite map_app. split; intros hin; apply in_app_iff in hin; destruct hin as [hin|hin].
          - apply (proj1 sA). exact hin.
          - apply (sK _ nt1). exact hin.
          - apply (proj2 sA). exact hin.
          - apply (sK _ nt2). exact hin. }
        rewrite end_some by apply hAK. rewrite run_post. f_equal. f_equal. f_equal. f_equal.
        destruct pretty eqn:ep.
        * assert (tail = []) by (destruct tail; [reflexivity|]; destruct htail as (_ & _ & h); [discriminate|discriminate]). subst tail. cbn [T2 text_entry].
          rewrite <- !app_assoc. rewrite finish_blank; [unfold T2; cbn [text_entry]; rewrite <- app_assoc; reflexivity|exact ht|apply blank_post|apply blank_lead|].
          intros r hr. apply in_app_iff in hr. destruct hr as [hr|hr].
          -- apply in_concat in hr. destruct hr as (l & hl & hr). apply repeat_spec in hl. subst l.
             assert (hb : Blank (post (S depth) ++ lead (S depth))) by (apply blank_app; [apply blank_post|apply blank_lead]).
             destruct (post (S depth) ++ lead (S depth)); [destruct hr|]. destruct hr as [<-|[]]. exact hb.
          -- assert (hb : Blank (post (S depth) ++ lead depth ++ [])) by (apply blank_app; [apply blank_post|apply blank_app; [apply blank_lead|apply blank_nil]]).
             destruct (post (S depth) ++ lead depth ++ []); [destruct hr|]. destruct hr as [<-|[]]. exact hb.
        * assert (e1 : post (S depth) = []) by (unfold post; rewrite ep; reflexivity). assert (e2 : forall d, lead d = []) by (intros d; unfold lead; rewrite ep; reflexivity).
          rewrite e1, !e2. cbn [app opt]. rewrite app_nil_r.
          assert (e3 : concat (repeat (@nil str) (length (flat (kk :: kids')) - 1)) = []) by (generalize (length (flat (kk :: kids')) - 1); induction n; simpl; [reflexivity|assumption]).
          rewrite e3, app_nil_r. rewrite finish_plain; [rewrite <- app_assoc; reflexivity|exact ht|exact htl|]. intros h. apply (htail h).
  Qed.
End Emit.
