(** C66: the inputs of an expression or a template are the names it mentions, and they suffice to evaluate it *)
From Coq Require Import Lia.
From Verif Require Scal_Proofs.
From Verif Require Import Vars_Spec Vars_Proofs Inst_Model Inst_Spec Inst_Proofs Inst_Props.
Local Open Scope char_scope. Local Open Scope list_scope.

Theorem expression_inputs : forall builtins s n, In n (expr_inputs builtins s) <-> Mentions s n /\ ~ In n builtins.
Proof.
  intros builtins s n. unfold expr_inputs. rewrite filter_In, dedup_In, scan_mentions, negb_true_iff, mem_not_In. tauto.
Qed.
Print Assumptions expression_inputs.

(** the value of an expression depends on nothing but its inputs, and names of builtins *)
Theorem inputs_suffice : forall V (sem : list str -> list (res V) -> res V) builtins e look look',
  WellFormed e ->
  (forall n, In n (expr_inputs builtins ("`" :: text e)) -> look n = look' n) ->
  (forall n, In n (names e) -> In n builtins -> look n = look' n) ->
  meaning sem look e = meaning sem look' e.
Proof.
  intros V sem builtins e look look' wf h hb. apply meaning_ext. intros n i.
  destruct (in_dec eq_dec n builtins) as [b|b]; [apply hb; assumption|]. apply h. apply expression_inputs. split; [|exact b].
  replace ("`" :: text e) with (["`"] ++ text e ++ []) by (rewrite app_nil_r; reflexivity).
  apply names_mentioned; [exact wf| |exact I|exact i]. right. exists [], "`". split; [reflexivity|].
  intros [[l|[l|l]]|[l|l]]; try (vm_compute in l; lia); discriminate.
Qed.
Print Assumptions inputs_suffice.
(** "max(a.x, 2*b1) if 'c' else d" *)
Definition sample : ex :=
  ENode [([], ENode [([], EName (chars "max")); (["("], EName (chars "a.x")); ([","; " "; "2"; "*"], EName (chars "b1"))] [")"]);
         (chars " if 'c' else ", EName (chars "d"))] [].
Ltac char_case := repeat match goal with h : _ \/ _ |- _ => destruct h end; try (match goal with h : _ |- _ => vm_compute in h; lia end); try discriminate.
Ltac not_wordy := let h := fresh in intros h; unfold wordy, letter, follower in h; cbn zeta in h; char_case.
Ltac is_letter := unfold letter; cbn zeta; vm_compute; lia.
Ltac is_wordy := unfold wordy, letter, follower; cbn zeta; try (left; vm_compute; lia); try (right; right; reflexivity); try (right; left; vm_compute; lia).
Example sample_ok : WellFormed sample /\ text sample = chars "max(a.x, 2*b1) if 'c' else d" /\ names sample = map chars ["max"%string; "a.x"%string; "b1"%string; "d"%string] /\
  expr_inputs [chars "max"] ("`" :: text sample) = map chars ["a.x"%string; "b1"%string; "if"%string; "c"%string; "else"%string; "d"%string].
Proof.
  split; [|repeat split; reflexivity]. cbn [WellFormed sample].
  assert (nm : forall c w, letter c -> Forall wordy w -> NameText (c :: w)) by (intros c w h1 h2; exists c, w; auto).
  assert (un : forall l c, ~ wordy c -> unopened (l ++ [c])) by (intros l c h; right; eauto).
  repeat split; try (left; reflexivity); try (right; split; [discriminate|]; cbn; not_wordy).
  - apply nm; [is_letter|repeat (apply Forall_cons; [is_wordy|]); apply Forall_nil].
  - apply (un [] "("). not_wordy.
  - apply nm; [is_letter|repeat (apply Forall_cons; [is_wordy|]); apply Forall_nil].
  - apply (un [","; " "; "2"] "*"). not_wordy.
  - apply nm; [is_letter|repeat (apply Forall_cons; [is_wordy|]); apply Forall_nil].
  - right. cbn. not_wordy.
  - apply (un (chars " if 'c' else") " "). not_wordy.
  - apply nm; [is_letter|constructor].
  - right. exact I.
Qed.

(** a property whose name is that of a builtin is no input of an expression that uses it *)
Theorem builtin_name_refuted : forall builtins n, In n builtins -> NameText n ->
  WellFormed (EName n) /\ ~ In n (expr_inputs builtins ("`" :: text (EName n))) /\
  forall V sem look, @meaning V sem look (EName n) = look n.
Proof.
  intros builtins n b h. split; [exact h|]. split; [|reflexivity]. intros i. apply expression_inputs in i. destruct i as [_ i]. exact (i b).
Qed.
Print Assumptions builtin_name_refuted.
(** words of a literal text, and keywords, are taken for inputs *)
Theorem literal_words_refuted : exists builtins e n, WellFormed e /\ In n (expr_inputs builtins ("`" :: text e)) /\ ~ In n (names e).
Proof.
  exists [], (ENode [] (chars "'on the left'")), (chars "left"). split; [left; reflexivity|]. split; [vm_compute; auto|]. intros [].
Qed.
Print Assumptions literal_words_refuted.

(** * Reading a property given by an expression *)
(** the class evaluates the property [k], given as the expression [e], by its meaning: a name is the value read for it, or
    else that of the builtin; [conv] converts and validates the result *)
Record Evaluates (c : icls) (heap : list pyval) (builtins : list str) (bval : str -> res pyval)
    (sem : list str -> list (res pyval) -> res pyval) (conv : res pyval -> res pyval) (k : string) (e : ex) : Prop := {
  ev_prim : ic_prim c k = true;
  ev_ins : ic_ins c k (VStr (unchars ("`" :: text e))) = map unchars (expr_inputs builtins ("`" :: text e));
  ev_eval : forall env, ic_eval c heap k (VStr (unchars ("`" :: text e))) env =
    conv (meaning sem (fun n => match dget (unchars n) env with Some v => Ok v | None => bval n end) e)
}.
Lemma inputs_get c heap A ks : forall e e', Inputs c heap A ks e e' ->
  (forall n v, In n ks -> Value c heap A n (Ok v) -> dget n e' = Some v) /\
  (forall n v, ~ In n ks -> dget n e = Some v -> dget n e' = Some v) /\
  (forall n x, Value c heap A n (Err x) -> dget n e = None -> dget n e' = None).
Proof.
  intros e e' h. induction h as [e|k ks v e e' hv h IH|k ks x e e' hv h IH].
  - split; [intros n v []|]. split; auto.
  - destruct IH as (I1 & I2 & I3). split; [|split].
    + intros n w i hw. destruct (in_dec eq_dec n ks) as [j|j]; [exact (I1 n w j hw)|]. destruct i as [<-|i]; [|contradiction].
      apply I2; [exact j|]. rewrite dget_dset_same. pose proof (Value_fun _ _ _ _ _ hv _ hw) as q. congruence.
    + intros n w i d. apply I2; [intros j; apply i; right; exact j|]. rewrite dget_dset_other; [exact d|]. intros ->. apply i. left. reflexivity.
    + intros n x hx d. apply (I3 n x hx). rewrite dget_dset. destruct (eq_dec n k) as [->|ne]; [|exact d].
      pose proof (Value_fun _ _ _ _ _ hv _ hx) as q. discriminate.
  - destruct IH as (I1 & I2 & I3). split; [|split].
    + intros n w [<-|i] hw; [|exact (I1 n w i hw)]. pose proof (Value_fun _ _ _ _ _ hv _ hw) as q. discriminate.
    + intros n w i d. apply I2; [intros j; apply i; right; exact j|exact d].
    + exact I3.
Qed.
Lemma unchars_inj s t : unchars s = unchars t -> s = t.
Proof. intros h. rewrite <- (list_ascii_of_string_of_list_ascii s), <- (list_ascii_of_string_of_list_ascii t). unfold unchars in h. rewrite h. reflexivity. Qed.
(** after any history, such a property reads as the expression evaluated with the current value of each name *)
Theorem expression_read : forall c heap dom builtins bval sem conv A0 ops A s k e look,
  Regular c heap dom -> History c heap dom A0 ops A s -> Evaluates c heap builtins bval sem conv k e -> WellFormed e ->
  dget k A = Some (VStr (unchars ("`" :: text e))) ->
  (forall n, In n (names e) -> ~ In "." n) ->
  (forall n, In n (names e) -> In n builtins -> dget (unchars n) A = None) ->
  (forall n, In n (names e) ->
     (exists v, Value c heap A (unchars n) (Ok v) /\ look n = Ok v) \/ (exists x, Value c heap A (unchars n) (Err x) /\ look n = bval n)) ->
  exists s', step c (GetItem k) s = (conv (meaning sem look e), s').
Proof.
  intros c heap dom builtins bval sem conv A0 ops A s k e look R H E wf hk _ hb hl.
  destruct (read_coherent c heap dom A0 ops A s k R H) as (r & s' & es & hv & _). exists s'. rewrite es. f_equal.
  inversion hv as [k0 h0|k0 raw env h0 hin]; subst; [congruence|]. assert (raw = VStr (unchars ("`" :: text e))) as -> by congruence.
  rewrite (ev_eval _ _ _ _ _ _ _ _ E). f_equal. apply meaning_ext. intros n i.
  unfold inputs_of in hin. rewrite (ev_prim _ _ _ _ _ _ _ _ E), (ev_ins _ _ _ _ _ _ _ _ E) in hin.
  destruct (inputs_get _ _ _ _ _ _ hin) as (I1 & _ & I3).
  destruct (hl n i) as [(v & hv1 & ->)|(x & hx & ->)].
  - rewrite (I1 (unchars n) v); [reflexivity| |exact hv1]. apply in_or_app. right. apply in_map. apply expression_inputs. split.
    + replace ("`" :: text e) with (["`"] ++ text e ++ []) by (rewrite app_nil_r; reflexivity).
      apply names_mentioned; [exact wf| |exact I|exact i]. right. exists [], "`". split; [reflexivity|]. not_wordy.
    + intros b. pose proof (hb n i b) as q. pose proof (Value_fun _ _ _ _ _ (value_missing c heap A _ q) _ hv1). discriminate.
  - rewrite (I3 (unchars n) x hx eq_refl). reflexivity.
Qed.
Print Assumptions expression_read.

(** a class with numbers "a", "b" and a property "k" given by the expression "a+b" *)
Definition sum_ex : ex := ENode [([], EName (chars "a")); (["+"], EName (chars "b"))] [].
Definition sum_sem (signs : list str) (l : list (res pyval)) : res pyval :=
  match l with [Ok (VInt x); Ok (VInt y)] => Ok (VInt (x + y)) | _ => Err TypeError end.
Definition sum_class : icls := {|
  ic_deps := []; ic_prim := fun _ => true; ic_declared := fun _ => true; ic_additional := false;
  ic_required := []; ic_readonly := []; ic_translated := []; ic_lazy := true; ic_limit := 20;
  ic_expr := fun v => match v with VStr _ => true | _ => false end;
  ic_ins := fun _ v => match v with VStr t => map unchars (expr_inputs [] (chars t)) | _ => [] end;
  ic_getter := fun _ => None;
  ic_eval := fun _ _ raw env => match raw with
                                | VStr _ => meaning sum_sem (fun n => match dget (unchars n) env with Some v => Ok v | None => Err NameError end) sum_ex
                                | _ => Ok raw end |}.
Definition sum_store : dict string pyval := [("a"%string, VInt 1); ("b"%string, VInt 2); ("k"%string, VStr (unchars ("`" :: text sum_ex)))].
Example expression_read_case :
  Regular sum_class [] demo_kind /\ Kinds demo_kind sum_store /\ Evaluates sum_class [] [] (fun _ => Err NameError) sum_sem (fun r => r) "k" sum_ex /\ WellFormed sum_ex /\
  Acyclic sum_class sum_store /\
  fst (run sum_class [GetItem "k"; SetItem "b" (VInt 5); GetItem "k"] (fresh sum_store [])) = [Ok (VInt 3); Ok VNone; Ok (VInt 6)].
Proof.
  split; [|split; [apply kinds_check; reflexivity|split; [|split; [|split]]]].
  - constructor.
    + apply demo_kind_id.
    + intros k [] e v hk hE h; try contradiction; try (injection h as <-; exact I). unfold sum_class, ic_eval in h. unfold sum_ex, meaning in h. cbn [map sum_sem] in h.
      unfold sum_sem in h. destruct (dget _ e) as [[]|]; try discriminate. destruct (dget _ e) as [[]|]; try discriminate. injection h as <-. exact I.
    + intros k [] e e' h; cbn; try reflexivity. rewrite !h. reflexivity.
    + intros k [] h _; try reflexivity. discriminate.
    + intros k [] e e' h; try reflexivity. discriminate.
    + intros k [] e v h; try (injection 1 as <-; split; reflexivity). discriminate.
    + intros k e. split; reflexivity.
    + reflexivity.
    + reflexivity.
  - constructor; reflexivity.
  - cbn. repeat split; try (left; reflexivity).
    + exists "a", []. repeat split; [is_letter|constructor].
    + right. exists [], "+". split; [reflexivity|]. not_wordy.
    + right. split; [discriminate|]. not_wordy.
    + exists "b", []. repeat split; [is_letter|constructor].
    + right. exact I.
  - exists (fun k => if eq_dec k "k"%string then 1 else 0). split; [|split].
    + intros k raw k' h i. cbn [sum_store dget] in h. unfold inputs_of in i. cbn [sum_class ic_deps ic_prim ic_ins dget app] in i.
      destruct (eq_dec k "a"%string); [injection h as <-; destruct i|]. destruct (eq_dec k "b"%string); [injection h as <-; destruct i|].
      destruct (eq_dec k "k"%string); [|discriminate]. injection h as <-. vm_compute in i. destruct i as [<-|[<-|[]]]; vm_compute; lia.
    + intros d s k [].
    + intros k. cbn [sum_class ic_limit]. destruct (eq_dec k "k"%string); lia.
  - vm_compute. reflexivity.
Qed.

(** * Templates *)
(** the inputs of a template whose variables are references are these references, in order, those to the object itself
    without "this." or "self." *)
Theorem template_names : forall ts vs ns, Template ts vs -> Forall2 Own vs ns -> template_inputs ts = Ok ns.
Proof.
  intros ts vs ns h f. unfold template_inputs. rewrite (template_read ts vs h). cbn [rbind]. f_equal.
  induction f as [|v n vs ns hv f IH] in h |- *; [reflexivity|]. cbn [map]. rewrite (own_read v n hv). f_equal.
  clear -f. induction f as [|v n vs ns hv f IH]; [reflexivity|]. cbn [map]. rewrite (own_read v n hv), IH. reflexivity.
Qed.
Print Assumptions template_names.
(** "{% if c %}{{ this.a.0 }} and {{ b.c|upper }}{% endif %}" *)
Example template_names_case :
  let ts := [TElse (chars "{%"); TName (chars "if"); TName (chars "c"); TElse (chars "%}");
             TBegin; TName (chars "this"); TSign ["."]; TName ["a"]; TSign ["."]; TInt ["0"]; TEnd; TElse (chars " and ");
             TBegin; TName ["b"]; TSign ["."]; TName ["c"]; TSign ["|"]; TName (chars "upper"); TEnd;
             TElse (chars "{%"); TName (chars "endif"); TElse (chars "%}")] in
  exists vs ns, Template ts vs /\ Forall2 Own vs ns /\ ns = [chars "a[0]"; chars "b.c"] /\ template_inputs ts = Ok ns.
Proof.
  intros ts. exists [chars "this.a[0]"; chars "b.c"], [chars "a[0]"; chars "b.c"]. repeat split; try reflexivity.
  - do 4 (apply template_other; [discriminate|]).
    apply (template_reference [TName (chars "this"); TSign ["."]; TName ["a"]; TSign ["."]; TInt ["0"]] (chars "this.a[0]")).
    { apply (ref_item [TName (chars "this"); TSign ["."]; TName ["a"]] (chars "this.a") ["0"]).
      apply (ref_attribute [TName (chars "this")] (chars "this") ["a"]); [|discriminate]. apply ref_name. discriminate. }
    apply template_other; [discriminate|].
    apply (template_filtered [TName ["b"]; TSign ["."]; TName ["c"]] (chars "b.c")).
    { apply (ref_attribute [TName ["b"]] ["b"] ["c"]); [|discriminate]. apply ref_name. discriminate. }
    do 5 (apply template_other; [discriminate|]). constructor.
  - assert (pl : forall p, length p <= 4 -> Plain p).
    { intros p h a b. split; intros ->; rewrite !app_length in h; cbn in h; lia. }
    apply Forall2_cons; [|apply Forall2_cons; [|apply Forall2_nil]].
    + apply (own_this (chars "a[0]")). apply pl. cbn. lia.
    + apply own_plain. apply pl. cbn. lia.
Qed.
(** anything else than a reference goes wrong: operands are joined to one name, arguments of filters and the tags of
    blocks are not looked at, items in brackets raise *)
Theorem template_operands_refuted : forall a b op rest vs, a <> ["|"] -> b <> ["|"] -> op <> ["|"] -> op <> [] -> Template rest vs ->
  exists ns, template_inputs ([TBegin; TName a; TSign op; TName b; TEnd] ++ rest) = Ok (without_this (a ++ op ++ b) :: ns).
Proof.
  intros a b op rest vs ha hb ho _ h. exists (map without_this vs). unfold template_inputs. cbn [app variables tok_value].
  rewrite !(proj2 (beq_false _ (Some a) (Some ["|"]))) by congruence. cbn [variables tok_value].
  rewrite !(proj2 (beq_false _ (Some op) (Some ["|"]))) by congruence.
  rewrite !(proj2 (beq_false _ (Some b) (Some ["|"]))) by congruence. cbn [rev app join_all rbind].
  rewrite (template_read rest vs h). cbn [rbind map]. rewrite app_nil_r. reflexivity.
Qed.
Print Assumptions template_operands_refuted.
Theorem template_blocks_refuted : forall ts, ~ In TBegin ts -> template_inputs ts = Ok [].
Proof.
  intros ts h. unfold template_inputs. rewrite (template_read ts []); [reflexivity|]. induction ts as [|t ts IH]; constructor.
  - intros ->. apply h. left. reflexivity.
  - apply IH. intros i. apply h. right. exact i.
Qed.
Print Assumptions template_blocks_refuted.
Theorem filter_arguments_refuted : forall r p q ts, Reference r p -> Own p q -> ~ In TBegin ts ->
  template_inputs (TBegin :: r ++ TSign ["|"] :: ts) = Ok [q].
Proof.
  intros r p q ts hr ho h. apply (template_names _ [p]).
  - apply template_filtered; [exact hr|]. induction ts as [|t ts IH]; constructor.
    + intros ->. apply h. left. reflexivity.
    + apply IH. intros i. apply h. right. exact i.
  - apply Forall2_cons; [exact ho|apply Forall2_nil].
Qed.
Print Assumptions filter_arguments_refuted.
Theorem template_brackets_refuted : forall r p i ts, Reference r p -> template_inputs (TBegin :: r ++ TSign ["["] :: TInt i :: TSign ["]"] :: TEnd :: ts) = Err TypeError.
Proof.
  intros r p i ts hr. unfold template_inputs. rewrite variables_begin. destruct (reference_read r p hr) as (var & hj & hv). rewrite hv.
  cbn [variables tok_value]. rewrite !(proj2 (beq_false _ (Some ["["]) (Some ["|"]))) by discriminate.
  cbn [variables tok_value beq rbind]. rewrite !(proj2 (beq_false _ (Some ["]"]) (Some ["|"]))) by discriminate.
  rewrite (proj2 (beq_false _ (Some ["["]) (Some ["."]))) by discriminate. cbn [rev]. rewrite !join_all_app, hj. reflexivity.
Qed.
Print Assumptions template_brackets_refuted.
(** "this." and "self." disappear within longer names too *)
Theorem name_mangled_refuted : exists r p q, Reference r p /\ template_inputs (TBegin :: r ++ [TEnd]) = Ok [q] /\ p = chars "myself.x" /\ q = chars "myx".
Proof.
  exists [TName (chars "myself"); TSign ["."]; TName ["x"]], (chars "myself.x"), (chars "myx"). repeat split; try reflexivity.
  apply (ref_attribute [TName (chars "myself")] (chars "myself") ["x"]); [|discriminate]. apply ref_name. discriminate.
Qed.
Print Assumptions name_mangled_refuted.

(** * Which of the two *)
(** a text with "{{" or "{%" is a template, even when it starts as an expression does; other values have no inputs *)
Theorem inputs_by_kind : forall builtins lex s,
  let braces := exists a c b, s = a ++ "{" :: c :: b /\ (c = "{" \/ c = "%") in
  (braces -> value_inputs builtins lex false (SStr s) = do ts <- lex s; template_inputs ts) /\
  (~ braces -> hd " " s = "`" -> value_inputs builtins lex false (SStr s) = Ok (expr_inputs builtins s)) /\
  (~ braces -> hd " " s <> "`" -> value_inputs builtins lex false (SStr s) = Ok []).
Proof.
  intros builtins lex s. cbn zeta. rewrite <- Scal_Proofs.has_pair_spec. unfold value_inputs. destruct (is_pattern (SStr s)) eqn:ep.
  - split; [reflexivity|]. split; intros h; destruct (h eq_refl).
  - split; [discriminate|]. split; intros _ h; destruct s as [|c s]; cbn [hd] in h; try discriminate.
    + subst c. reflexivity.
    + reflexivity.
    + assert (ee : is_expr (SStr (c :: s)) = false); [|rewrite ee; reflexivity].
      destruct (is_expr (SStr (c :: s))) eqn:ee; [|reflexivity]. exfalso. apply h. cbn in ee. destruct c as [[] [] [] [] [] [] [] []]; try discriminate ee. reflexivity.
Qed.
Print Assumptions inputs_by_kind.
(** a literal taken as it is has no inputs, nor has a value which is not a text *)
Theorem raw_no_inputs : forall builtins lex raw v, (raw = true \/ forall s, v <> SStr s) -> value_inputs builtins lex raw v = Ok [].
Proof. intros builtins lex raw v [->|h]; destruct v; try reflexivity. destruct (h s eq_refl). Qed.
Print Assumptions raw_no_inputs.
Example raw_no_inputs_case : value_inputs [] (fun _ => Err UnboundLocalError) true (SStr (chars "{{a}}")) = Ok [] /\ value_inputs [] (fun _ => Err UnboundLocalError) false (SNone) = Ok [].
Proof. split; reflexivity. Qed.
Example inputs_by_kind_case : let s := chars "`{'a':{{1}}}[x]" in
  hd " " s = "`" /\ (forall b, value_inputs b (fun _ => Ok [TElse s]) false (SStr s) = Ok []) /\ expr_inputs [] s = [["a"]; ["x"]].
Proof. repeat split; reflexivity. Qed.
