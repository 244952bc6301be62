(** Lemmas for identifiers. *)
From Verif Require Import IdT_Model IdT_Spec Coll_Proofs Ns_Proofs Uri_Proofs Uri_Props Str_Proofs.
Local Open Scope char_scope. Local Open Scope list_scope.

Definition name_char (c : ascii) : Prop := Letter c \/ Digit c \/ c = "_" \/ c = ".".
Lemma cn_char_spec c : cn_char c = true <-> name_char c.
Proof.
  unfold cn_char, name_char, Letter, Digit, is_digit, is_lower, is_upper. rewrite !orb_true_iff, !in_range_spec.
  rewrite !beq_true. tauto.
Qed.
Lemma newline_not c : cn_char c = true -> c <> newline.
Proof. intros h ->. vm_compute in h. discriminate. Qed.
Lemma hash_not : cn_char "#" = false. Proof. reflexivity. Qed.

Lemma cn_rest_spec s : cn_rest s = true <-> exists r, (forall c, In c r -> name_char c) /\ (s = r \/ s = r ++ [newline]).
Proof.
  induction s as [|c s IH]; cbn [cn_rest].
  - split; [intros _; exists []; split; [intros ? []|left; reflexivity]|reflexivity].
  - destruct (cn_char c) eqn:e.
    + apply cn_char_spec in e. rewrite IH. split.
      * intros (r & h & o). exists (c :: r). split; [intros x [<-|i]; auto|]. destruct o as [->| ->]; [left|right]; reflexivity.
      * intros (r & h & o). destruct r as [|x r].
        { destruct o as [o|o]; [discriminate|]. cbn [app] in o. injection o as -> ->. exists []. split; [intros ? []|left; reflexivity]. }
        exists r. split; [intros y i; apply h; right; exact i|]. cbn [app] in o. destruct o as [o|o]; injection o as -> ->; auto.
    + rewrite andb_true_iff, beq_true. split.
      * intros [-> h]. destruct s; [|discriminate]. exists []. split; [intros ? []|right; reflexivity].
      * intros (r & h & o). destruct r as [|x r].
        { destruct o as [o|o]; [discriminate|]. cbn [app] in o. injection o as -> ->. split; reflexivity. }
        exfalso. assert (x = c) by (destruct o as [o|o]; cbn [app] in o; congruence). subst x.
        assert (f := h c (or_introl eq_refl)). apply cn_char_spec in f. congruence.
Qed.
Lemma cn_match_spec s : cn_match s = true <-> exists r, CName r /\ (s = r \/ s = r ++ [newline]).
Proof.
  destruct s as [|c s]; cbn [cn_match].
  - split; [discriminate|]. intros (r & (ne & _) & [<-|e]); [congruence|destruct r; discriminate].
  - rewrite andb_true_iff, cn_char_spec, cn_rest_spec. split.
    + intros (h & r & hr & o). exists (c :: r). split; [split; [discriminate|intros x [<-|i]; [exact h|apply hr; exact i]]|].
      destruct o as [->| ->]; [left|right]; reflexivity.
    + intros (r & (ne & hr) & o). destruct r as [|x r]; [congruence|]. cbn [app] in o.
      assert (x = c /\ (s = r \/ s = r ++ [newline])) as (-> & o') by (destruct o as [o|o]; injection o as -> ->; auto).
      split; [apply hr; left; reflexivity|]. exists r. split; [intros y i; apply hr; right; exact i|exact o'].
Qed.
Lemma cn_match_no_hash s : In "#" s -> cn_match s = false.
Proof.
  intros i. destruct (cn_match s) eqn:e; [|reflexivity]. apply cn_match_spec in e. destruct e as (r & (_ & h) & o). exfalso.
  assert (j : In "#" r). { destruct o as [->| ->]; [exact i|]. apply in_app_iff in i. destruct i as [i|[i|[]]]; [exact i|discriminate]. }
  apply h in j. apply cn_char_spec in j. discriminate.
Qed.
Lemma Ref_in d f u : Ref d f u -> In "#" u.
Proof. intros (-> & _ & _). apply in_or_app. right. left. reflexivity. Qed.
Lemma Ref_inj d f d' f' u : Ref d f u -> Ref d' f' u -> d = d' /\ f = f'.
Proof.
  intros (e & nd & nf) (e' & nd' & nf'). assert (h := split_two d f nd nf). rewrite <- e, e', split_two in h by assumption.
  injection h as -> ->. split; reflexivity.
Qed.
Lemma Doc_split c d : Doc c d -> hd [] (split_char "#" c) = d.
Proof. intros (n & [->|(f & ->)]); [rewrite split_char_free by exact n|rewrite split_char_app by exact n]; reflexivity. Qed.
Lemma Doc_exists c : Doc c (hd [] (split_char "#" c)).
Proof.
  split; [apply split_hash_head|]. induction c as [|x c IH]; [left; reflexivity|]. cbn [split_char].
  destruct (split_char "#" c) as [|w ws] eqn:e; [destruct (split_char_nonempty _ _ e)|]. cbn [hd] in IH.
  destruct (beq_spec _ x "#") as [->|ne]; [right; exists c; reflexivity|]. cbn [hd].
  destruct IH as [->|(f & ->)]; [left; reflexivity|right; exists f; reflexivity].
Qed.
Lemma scope_ref d f u b d0 : Ref d f u -> Doc b d0 -> scope u b = (match d with [] => d0 | _ => d end) ++ "#" :: f.
Proof. intros (-> & nd & nf) hb. rewrite scope_two by assumption. rewrite (Doc_split b d0 hb). reflexivity. Qed.
Lemma scope_hash u b d0 : In "#" u -> Doc b d0 -> exists d f, Ref d f (scope u b) /\ (d <> [] \/ d = d0).
Proof.
  intros i hb. unfold scope. rewrite (proj2 (mem_In _ _ _) i). destruct (split_hash_in u i) as (d & f & r & e). rewrite e.
  assert (nd : ~ In "#" d) by (apply (split_hash_all u); rewrite e; left; reflexivity).
  assert (nf : ~ In "#" f) by (apply (split_hash_all u); rewrite e; right; left; reflexivity).
  rewrite (Doc_split b d0 hb). destruct d as [|c d]; [exists d0|exists (c :: d)]; exists f; (split; [split; [reflexivity|split; [|exact nf]]|]);
    [apply hb|right; reflexivity|exact nd|left; discriminate].
Qed.

Lemma convert_hash m v : In "#" v -> id_convert m v = (Ok (scope v (m_cur_uri m)), m).
Proof.
  intros i. unfold id_convert. rewrite (cn_match_no_hash v i). destruct v as [|c v]; [destruct i|].
  cbn [fst snd rbind]. rewrite (proj2 (mem_In _ _ _) i). reflexivity.
Qed.
Lemma convert_name m v : cn_match v = true -> id_convert m v =
  ((do uri <- fst (get_cname_id m v); Ok (scope (if mem "#" uri then uri else uri ++ ["#"]) (m_cur_uri m))), snd (get_cname_id m v)).
Proof. intros e. unfold id_convert. rewrite e. destruct v; [discriminate|reflexivity]. Qed.
Lemma get_cname_id_uri m v : m_cur_uri (snd (get_cname_id m v)) = m_cur_uri m.
Proof. unfold get_cname_id. destruct (absolute (m_cur m) v); reflexivity. Qed.
Lemma has_fragment_spec v : has_fragment v = true <-> exists d f, v = d ++ "#" :: f /\ ~ In "#" d /\ f <> [].
Proof.
  induction v as [|c v IH]; cbn [has_fragment].
  - split; [discriminate|]. intros ([|x d] & f & e & _); discriminate.
  - destruct (beq_spec _ c "#") as [->|ne].
    + split.
      * intros h. exists [], v. split; [reflexivity|]. split; [intros []|]. destruct v; [discriminate|discriminate].
      * intros (d & f & e & nd & nf). destruct d as [|x d]; [|cbn [app] in e; injection e as <- _; exfalso; apply nd; left; reflexivity].
        cbn [app] in e. injection e as ->. destruct f; [congruence|reflexivity].
    + rewrite IH. split.
      * intros (d & f & -> & nd & nf). exists (c :: d), f. split; [reflexivity|]. split; [intros [h|h]; [congruence|tauto]|exact nf].
      * intros (d & f & e & nd & nf). destruct d as [|x d]; [cbn [app] in e; injection e as -> _; congruence|].
        cbn [app] in e. injection e as -> ->. exists d, f. split; [reflexivity|]. split; [intros h; apply nd; right; exact h|exact nf].
Qed.
Lemma cn_group_spec r : CName r -> cn_group r = r /\ cn_group (r ++ [newline]) = r.
Proof.
  intros (_ & h). unfold cn_group. rewrite filter_app. cbn [filter]. replace (cn_char newline) with false by reflexivity. rewrite app_nil_r.
  assert (e : filter cn_char r = r); [|split; exact e]. clear -h. induction r as [|c r IH]; [reflexivity|]. cbn [filter].
  rewrite (proj2 (cn_char_spec c)) by (apply h; left; reflexivity). f_equal. apply IH. intros x i. apply h. right. exact i.
Qed.

Lemma index_no_hash n : ~ In "#" (index_name n).
Proof.
  unfold index_name. induction (Nat.to_uint n) as [|d IH|d IH|d IH|d IH|d IH|d IH|d IH|d IH|d IH|d IH]; cbn; [tauto|..]; (intros [h|h]; [discriminate|exact (IH h)]).
Qed.
Lemma ljoin_chars sep ws c : In c (ljoin sep ws) -> In c sep \/ exists w, In w ws /\ In c w.
Proof.
  induction ws as [|w ws IH]; [intros []|]. destruct ws as [|w2 ws].
  - cbn. intros i. right. exists w. split; [left; reflexivity|]. rewrite ?app_nil_r in i. exact i.
  - rewrite ljoin_cons by discriminate. intros i. apply in_app_iff in i. destruct i as [i|i]; [right; exists w; split; [left; reflexivity|exact i]|].
    apply in_app_iff in i. destruct i as [i|i]; [left; exact i|]. destruct (IH i) as [h|(x & ix & h)]; [left; exact h|right; exists x; split; [right; exact ix|exact h]].
Qed.
