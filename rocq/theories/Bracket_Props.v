(** C10 (grouper) and C11 (brackets). *)
From Verif Require Import Bracket_Model Bracket_Spec Bracket_Proofs.
From Coq Require Import Sorted.

Theorem grouper_concat : forall (A : Type) (n : Z) (items : list A), concat (grouper n items) = items.
Proof. intros A n items. exact (grouper_loop_concat n items []). Qed.
Print Assumptions grouper_concat.

Theorem grouper_page_sizes : forall (A : Type) (n : nat) (items : list A), 1 <= n ->
  exists full lastp, grouper (Z.of_nat n) items = full ++ [lastp] /\
    (forall p, In p full -> length p = n) /\ length lastp < n.
Proof. intros A n items h. exact (grouper_loop_shape n items [] h). Qed.
Print Assumptions grouper_page_sizes.

Theorem grouper_nonpositive : forall (A : Type) (z : Z) (items : list A), (z <= 0)%Z -> grouper z items = [items].
Proof. intros A z items h. exact (grouper_loop_nonpos z h items []). Qed.
Print Assumptions grouper_nonpositive.

Example grouper_ex : grouper 2 [1; 2; 3; 4; 5] = [[1; 2]; [3; 4]; [5]] /\ grouper 2 [1; 2] = [[1; 2]; []].
Proof. split; reflexivity. Qed.

(** every bracket kind known to [get_brackets] has distinct opening and closing characters *)
Theorem bracket_kinds_distinct : forall b o c, get_brackets b = Ok (o, c) -> o <> c.
Proof. exact get_brackets_distinct. Qed.
Print Assumptions bracket_kinds_distinct.

Theorem bracket_kind_of_char : forall x o c, get_brackets [x] = Ok (o, c) ->
  (x = o \/ x = c) /\ In (o, c) [("(", ")"); ("[", "]"); ("{", "}"); ("<", ">")]%char.
Proof.
  intros x o c e. rewrite get_brackets_char in e. destruct (find _ _) as [p|] eqn:f; [|discriminate]. injection e as ->.
  apply find_some in f. destruct f as (i & h). split; [|exact i]. apply orb_true_iff in h. rewrite !beq_true in h. exact h.
Qed.
Print Assumptions bracket_kind_of_char.

(** the pairs found are exactly the matching pairs, by increasing closing position, and no closing bracket is left out *)
Theorem find_brackets_exact : forall (A : Type) (EA : EqDec A) (br cbr : A), br <> cbr -> forall t ps,
  find_brackets br cbr t = Ok ps ->
  (forall i j, In (i, j) ps <-> Matched br cbr t i j) /\ StronglySorted lt (map snd ps) /\
  (forall j, nth_error t j = Some cbr -> In j (map snd ps)).
Proof. intros A EA br cbr neq t ps. exact (find_brackets_ok br cbr neq t ps). Qed.
Print Assumptions find_brackets_exact.

(** it raises, and only IndexError, exactly when some prefix has more closing than opening brackets *)
Theorem find_brackets_raises_iff : forall (A : Type) (EA : EqDec A) (br cbr : A), br <> cbr -> forall t,
  (forall e, find_brackets br cbr t = Err e -> e = IndexError) /\
  (find_brackets br cbr t = Err IndexError <-> Overclosed br cbr t).
Proof. intros A EA br cbr neq t. exact (find_brackets_err br cbr neq t). Qed.
Print Assumptions find_brackets_raises_iff.

(** matching pairs are nested or disjoint *)
Theorem brackets_nested_or_disjoint : forall (A : Type) (EA : EqDec A) (br cbr : A), br <> cbr ->
  forall t i1 j1 i2 j2, Matched br cbr t i1 j1 -> Matched br cbr t i2 j2 -> j1 < j2 -> j1 < i2 \/ i2 < i1.
Proof. intros A EA br cbr neq. exact (Matched_laminar br cbr neq). Qed.
Print Assumptions brackets_nested_or_disjoint.

(** find_closing_bracket returns the pair of the first opening bracket with the text between, when no closing bracket
    comes first and it gets closed *)
Theorem find_closing_bracket_first : forall (A : Type) (EA : EqDec A) (br cbr : A), br <> cbr -> forall t i j c,
  find_closing_bracket br cbr t = Ok (Some ((i, j), c)) <->
  exists a d, t = a ++ br :: c ++ cbr :: d /\ BracketFree br cbr a /\ Bal br cbr c /\ i = length a /\ j = length a + 1 + length c.
Proof. intros A EA br cbr neq t i j c. exact (closing_some br cbr neq t i j c). Qed.
Print Assumptions find_closing_bracket_first.

Theorem find_closing_bracket_raises_iff : forall (A : Type) (EA : EqDec A) (br cbr : A), br <> cbr -> forall t e,
  find_closing_bracket br cbr t = Err e <-> e = IndexError /\ exists a d, t = a ++ cbr :: d /\ BracketFree br cbr a.
Proof. intros A EA br cbr neq t e. exact (closing_err br cbr neq t e). Qed.
Print Assumptions find_closing_bracket_raises_iff.

(** Finding: [is_in] (utils.py:567-568) does not test nesting: among matching pairs it holds exactly when the first
    ends before the second begins. *)
Theorem bracket_is_in_means_before : forall (A : Type) (EA : EqDec A) (br cbr : A), br <> cbr -> forall t p q,
  Matched br cbr t (fst p) (snd p) -> Matched br cbr t (fst q) (snd q) -> (is_in p q = true <-> snd p < fst q).
Proof. intros A EA br cbr neq t p q. exact (is_in_before br cbr neq t p q). Qed.
Print Assumptions bracket_is_in_means_before.

Example find_brackets_ex :
  find_brackets "("%char ")"%char (list_ascii_of_string "a(b(c)d)e(f") = Ok [(3, 5); (1, 7)] /\
  find_brackets "("%char ")"%char (list_ascii_of_string "a)b(") = Err IndexError /\
  find_closing_bracket "("%char ")"%char (list_ascii_of_string "a(b(c)d)e(f)") =
    Ok (Some ((1, 7), list_ascii_of_string "b(c)d")) /\
  find_closing_bracket "("%char ")"%char (list_ascii_of_string "a(b") = Ok None /\
  get_brackets (list_ascii_of_string "[") = Ok ("[", "]")%char /\ get_brackets (list_ascii_of_string "x") = Err InvalidValue.
Proof. repeat split. Qed.

(** each bracket character designates its kind, any other character is refused *)
Theorem bracket_kind_total : forall x,
  (forall o c, In (o, c) [("(", ")"); ("[", "]"); ("{", "}"); ("<", ">")]%char -> x = o \/ x = c -> get_brackets [x] = Ok (o, c)) /\
  ((forall o c, In (o, c) [("(", ")"); ("[", "]"); ("{", "}"); ("<", ">")]%char -> x <> o /\ x <> c) -> get_brackets [x] = Err InvalidValue).
Proof.
  intros x. split.
  - intros o c i h. repeat (destruct i as [i|i]; [injection i as <- <-; destruct h as [->| ->]; reflexivity|]). destruct i.
  - intros h. rewrite get_brackets_char. destruct (find _ _) as [p|] eqn:f; [|reflexivity]. exfalso.
    apply find_some in f. destruct f as (i & e). destruct (h (fst p) (snd p)) as (n1 & n2).
    { destruct p; exact i. }
    apply orb_true_iff in e. rewrite !beq_true in e. destruct e; congruence.
Qed.
Print Assumptions bracket_kind_total.

(** the content of a pair is the text strictly between the two brackets *)
Theorem bracket_content : forall (A : Type) (a b c : list A) br cbr,
  br_content (a ++ br :: b ++ cbr :: c) (length a, length a + 1 + length b) = b.
Proof.
  intros A a b c br cbr. unfold br_content. cbn [fst snd].
  replace (a ++ br :: b ++ cbr :: c) with ((a ++ [br]) ++ b ++ cbr :: c) by (rewrite <- app_assoc; reflexivity).
  replace (length a + 1) with (length (a ++ [br])) by (rewrite app_length; reflexivity).
  rewrite skipn_app, skipn_all, Nat.sub_diag. cbn [skipn app].
  replace (length (a ++ [br]) + length b - length (a ++ [br])) with (length b) by lia.
  rewrite firstn_app, firstn_all, Nat.sub_diag. cbn [firstn]. apply app_nil_r.
Qed.
Print Assumptions bracket_content.
Example bracket_content_ex : br_content (list_ascii_of_string "a(b(c)d)e") (1, 7) = list_ascii_of_string "b(c)d".
Proof. reflexivity. Qed.

(** a bracket can be made exactly of the positions of an opening character and of a closing character after it *)
Theorem bracket_accepted : forall (A : Type) (EA : EqDec A) (br cbr : A) (t : list A) i j p,
  mk_bracket br cbr t (i, j) = Ok p <->
  p = (i, j) /\ exists a b c, t = a ++ br :: b ++ cbr :: c /\ length a = i /\ length a + 1 + length b = j.
Proof.
  intros A EA br cbr t i j p. unfold mk_bracket. cbn [fst snd]. split.
  - destruct (nth_error t i) as [x|] eqn:e; destruct (nth_error t j) as [y|] eqn:f; 
      try (destruct (Nat.ltb i j); cbn [andb]; try destruct (beq x br); discriminate).
    destruct (Nat.ltb i j && beq x br && beq y cbr) eqn:h; [|discriminate]. intros q. injection q as <-. split; [reflexivity|].
    apply andb_true_iff in h. destruct h as (h & hy). apply andb_true_iff in h. destruct h as (h & hx).
    apply beq_true in hx, hy. subst x y. apply Nat.ltb_lt in h.
    apply nth_error_split in e. destruct e as (a & r & -> & la). exists a.
    rewrite nth_error_app2 in f by lia. destruct (j - length a) as [|k] eqn:k'; [lia|]. cbn in f.
    apply nth_error_split in f. destruct f as (b & c & -> & lb). exists b, c. split; [reflexivity|lia].
  - intros (-> & a & b & c & -> & la & lb). subst i j.
    rewrite nth_error_app2, Nat.sub_diag by lia. cbn [nth_error].
    rewrite nth_error_app2 by lia. replace (length a + 1 + length b - length a) with (S (length b)) by lia. cbn [nth_error].
    rewrite nth_error_app2, Nat.sub_diag by lia. cbn [nth_error].
    replace (Nat.ltb (length a) (length a + 1 + length b)) with true by (symmetry; apply Nat.ltb_lt; lia).
    rewrite !beq_refl. reflexivity.
Qed.
Print Assumptions bracket_accepted.
(** otherwise it is refused, with AssertionError, or IndexError for positions outside of the text *)
Theorem bracket_refused : forall (A : Type) (EA : EqDec A) (br cbr : A) (t : list A) i j e,
  mk_bracket br cbr t (i, j) = Err e ->
  (e = IndexError /\ i < j /\ length t <= j) \/ e = AssertionError.
Proof.
  intros A EA br cbr t i j e. unfold mk_bracket. cbn [fst snd].
  destruct (nth_error t i) as [x|] eqn:f; destruct (nth_error t j) as [y|] eqn:g.
  - destruct (_ && _); [discriminate|]. intros h. injection h as <-. auto.
  - destruct (Nat.ltb i j) eqn:l; cbn [andb]; [destruct (beq x br) eqn:b|]; intros h; injection h as <-; [left|auto|auto].
    apply Nat.ltb_lt in l. apply nth_error_None in g. auto.
  - destruct (Nat.ltb i j) eqn:l; intros h; injection h as <-; [left|auto].
    apply Nat.ltb_lt in l. apply nth_error_None in f. split; [reflexivity|]. lia.
  - destruct (Nat.ltb i j) eqn:l; intros h; injection h as <-; [left|auto].
    apply Nat.ltb_lt in l. apply nth_error_None in g. auto.
Qed.
Print Assumptions bracket_refused.
Example bracket_accepted_ex : let t := list_ascii_of_string "a(b(c)d" in
  mk_bracket "("%char ")"%char t (1, 5) = Ok (1, 5) /\ mk_bracket "("%char ")"%char t (5, 1) = Err AssertionError /\
  mk_bracket "("%char ")"%char t (1, 9) = Err IndexError.
Proof. repeat split. Qed.
