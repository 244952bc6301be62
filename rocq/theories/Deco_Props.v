(** C51, C52: array-aware functions, memoised properties and methods. *)
From Verif Require Import Base Deco_Model Lru_Props Types_Proofs.
Local Open Scope list_scope.

(** * C51 *)
Section TakeArrays.
  Context {V S : Type} (as_seq : V -> option (list V)) (iter : V -> res (list V)) (f : list V -> S -> res V * S).
  (** the function is called on each list of arguments in turn, each call succeeding *)
  Inductive Calls : list (list V) -> S -> list V -> S -> Prop :=
  | Calls_nil s : Calls [] s [] s
  | Calls_cons a argss s v s' vs s'' : f a s = (Ok v, s') -> Calls argss s' vs s'' -> Calls (a :: argss) s (v :: vs) s''.
  (** the argument list with the argument at position [i] replaced *)
  Definition Replaced (args : list V) (i : nat) (v : V) (args' : list V) : Prop :=
    length args' = length args /\ nth_error args' i = Some v /\ forall j, j <> i -> nth_error args' j = nth_error args j.

  Lemma set_arg_len i (v : V) : forall args, length (set_arg i v args) = length args.
  Proof. induction i as [|i IH]; intros [|x r]; cbn; try reflexivity. f_equal. apply IH. Qed.
  Lemma set_arg_replaced i (v : V) : forall args, i < length args -> Replaced args i v (set_arg i v args).
  Proof.
    intros args h. split; [apply set_arg_len|]. revert args h. induction i as [|i IH]; intros [|x r] h; cbn in *; try lia.
    - split; [reflexivity|]. intros [|j] n; [congruence|reflexivity].
    - destruct (IH r ltac:(lia)) as [a b]. split; [exact a|]. intros [|j] n; [reflexivity|]. apply b. congruence.
  Qed.
  Lemma Calls_inv a argss s vs s'' : Calls (a :: argss) s vs s'' -> exists v s' vs', vs = v :: vs' /\ f a s = (Ok v, s') /\ Calls argss s' vs' s''.
  Proof. intros h. inversion h; subst. eauto 10. Qed.
  Lemma call_all_ok argss : forall s vs s', call_all f argss s = (Ok vs, s') <-> Calls argss s vs s'.
  Proof.
    induction argss as [|a argss IH]; intros s vs s'; cbn [call_all].
    - split; [intros h; inversion h; constructor|intros h; inversion h; reflexivity].
    - split.
      + destruct (f a s) as [[v|e] s1] eqn:ef; [|discriminate]. destruct (call_all f argss s1) as [[vs1|e] s2] eqn:ec; [|discriminate].
        intros h. inversion h; subst. econstructor; [exact ef|]. apply IH. exact ec.
      + intros h. apply Calls_inv in h. destruct h as (v & s1 & vs' & -> & e & c). rewrite e. apply IH in c. rewrite c. reflexivity.
  Qed.
  Lemma call_all_err argss : forall s e s', call_all f argss s = (Err e, s') <->
    exists pre a post vs s1, argss = pre ++ a :: post /\ Calls pre s vs s1 /\ f a s1 = (Err e, s').
  Proof.
    induction argss as [|a argss IH]; intros s e s'; cbn [call_all].
    - split; [discriminate|]. intros (pre & a & post & vs & s1 & h & _). destruct pre; discriminate.
    - split.
      + destruct (f a s) as [[v|e0] s1] eqn:ef.
        * destruct (call_all f argss s1) as [[vs1|e1] s2] eqn:ec; [discriminate|]. intros h. inversion h; subst. apply IH in ec.
          destruct ec as (pre & a' & post & vs & s3 & -> & c & x). exists (a :: pre), a', post, (v :: vs), s3. split; [reflexivity|]. split; [econstructor; eassumption|exact x].
        * intros h. inversion h; subst. exists [], a, argss, [], s. split; [reflexivity|]. split; [constructor|exact ef].
      + intros (pre & a' & post & vs & s3 & h & c & x). destruct pre as [|p pre]; inversion h; subst.
        * inversion c; subst. rewrite x. reflexivity.
        * apply Calls_inv in c. destruct c as (v & s1 & vs' & -> & e1 & c). rewrite e1.
          assert (q : call_all f (pre ++ a' :: post) s1 = (Err e, s')) by (apply IH; eauto 10). rewrite q. reflexivity.
  Qed.

  (** A first argument that is no array: a plain call. *)
  Theorem take_scalar : forall n1 n2 fl args s a1, nth_error args n1 = Some a1 -> as_seq a1 = None ->
    take_arrays as_seq iter f n1 n2 fl args s = (match fst (f args s) with Ok v => Ok (One v) | Err e => Err e end, snd (f args s)).
  Proof. intros n1 n2 fl args s a1 h1 h2. unfold take_arrays. rewrite h1, h2. destruct (f args s) as [[v|e] s']; reflexivity. Qed.

  (** the second argument plays no part: none is declared, or it is no array, or an array of one element *)
  Definition Ignored (args : list V) (n2 : option nat) : Prop :=
    match n2 with
    | None => True
    | Some n => exists a2, nth_error args n = Some a2 /\ match as_seq a2 with None => True | Some l2 => length l2 = 1 end
    end.
  Lemma take_one n1 n2 fl args s a1 l1 : nth_error args n1 = Some a1 -> as_seq a1 = Some l1 -> Ignored args n2 ->
    take_arrays as_seq iter f n1 n2 fl args s = finish iter fl (call_all f (map (fun v => set_arg n1 v args) l1) s).
  Proof.
    intros h1 h2 ig. unfold take_arrays. rewrite h1, h2. destruct n2 as [n|]; [|reflexivity]. destruct ig as (a2 & e & q). rewrite e.
    destruct (as_seq a2) as [l2|]; [|reflexivity]. rewrite q. reflexivity.
  Qed.
  (** An array: the results of the calls on its elements, in order, the other arguments unchanged. *)
  Theorem take_each : forall n1 n2 args s a1 l1 vs s', nth_error args n1 = Some a1 -> as_seq a1 = Some l1 -> Ignored args n2 ->
    (take_arrays as_seq iter f n1 n2 false args s = (Ok (Many vs), s') <->
     exists argss, Forall2 (Replaced args n1) l1 argss /\ Calls argss s vs s').
  Proof.
    intros n1 n2 args s a1 l1 vs s' h1 h2 ig. rewrite (take_one n1 n2 false args s a1 l1 h1 h2 ig).
    assert (l : n1 < length args) by (apply nth_error_Some; congruence).
    assert (F : Forall2 (Replaced args n1) l1 (map (fun v => set_arg n1 v args) l1)). { induction l1 as [|v l1 IH] in |- *; cbn; constructor; [apply set_arg_replaced; exact l|apply IH]. }
    assert (U : forall argss, Forall2 (Replaced args n1) l1 argss -> argss = map (fun v => set_arg n1 v args) l1).
    { clear F h2. intros argss F. induction F as [|v a' l1 argss r F IH]; [reflexivity|]. cbn. rewrite IH. f_equal.
      destruct (set_arg_replaced n1 v args l) as (c1 & c2 & c3). destruct r as (r1 & r2 & r3). apply nth_error_ext. intros j.
      destruct (Nat.eq_dec j n1) as [->|n]; [congruence|rewrite (r3 j n), (c3 j n); reflexivity]. }
    unfold finish. split.
    - intros h. exists (map (fun v => set_arg n1 v args) l1). split; [exact F|]. destruct (call_all f (map (fun v => set_arg n1 v args) l1) s) as [[vs0|e] s0] eqn:ec; inversion h; subst. apply call_all_ok. exact ec.
    - intros (argss & F' & c). rewrite (U argss F') in c. apply call_all_ok in c. rewrite c. reflexivity.
  Qed.
  (** Two arrays of the same size, not 1: the calls on the pairs, in order. *)
  Theorem take_pairs : forall n1 n2 args s a1 a2 l1 l2 vs s', n1 <> n2 -> nth_error args n1 = Some a1 -> as_seq a1 = Some l1 ->
    nth_error args n2 = Some a2 -> as_seq a2 = Some l2 -> length l1 = length l2 -> length l2 <> 1 ->
    (take_arrays as_seq iter f n1 (Some n2) false args s = (Ok (Many vs), s') <->
     exists argss, length argss = length l1 /\
       (forall i v1 v2 a, nth_error l1 i = Some v1 -> nth_error l2 i = Some v2 -> nth_error argss i = Some a ->
          length a = length args /\ nth_error a n1 = Some v1 /\ nth_error a n2 = Some v2 /\ forall j, j <> n1 -> j <> n2 -> nth_error a j = nth_error args j) /\
       Calls argss s vs s').
  Proof.
    intros n1 n2 args s a1 a2 l1 l2 vs s' ne h1 h2 h3 h4 hl n1l. unfold take_arrays. rewrite h1, h2, h3, h4.
    destruct (Nat.eqb_spec (length l2) 1); [congruence|]. rewrite hl, Nat.eqb_refl.
    assert (k1 : n1 < length args) by (apply nth_error_Some; congruence). assert (k2 : n2 < length args) by (apply nth_error_Some; congruence).
    set (mk := fun p : V * V => set_arg n2 (snd p) (set_arg n1 (fst p) args)).
    assert (P : forall v1 v2, let a := mk (v1, v2) in length a = length args /\ nth_error a n1 = Some v1 /\ nth_error a n2 = Some v2 /\ forall j, j <> n1 -> j <> n2 -> nth_error a j = nth_error args j).
    { intros v1 v2 a. destruct (set_arg_replaced n1 v1 args k1) as (c1 & c2 & c3).
      assert (k3 : n2 < length (set_arg n1 v1 args)) by (rewrite c1; exact k2). destruct (set_arg_replaced n2 v2 (set_arg n1 v1 args) k3) as (d1 & d2 & d3).
      unfold a, mk. cbn [fst snd]. split; [congruence|]. split; [rewrite (d3 n1 ne); exact c2|]. split; [exact d2|]. intros j j1 j2. rewrite (d3 j j2). apply c3. exact j1. }
    assert (N : forall i v1 v2, nth_error l1 i = Some v1 -> nth_error l2 i = Some v2 -> nth_error (map mk (combine l1 l2)) i = Some (mk (v1, v2))).
    { clear - l1. revert l2. induction l1 as [|x l1 IH]; intros l2 i v1 v2 e1 e2; [destruct i; discriminate|]. destruct l2 as [|y l2]; [destruct i; discriminate|].
      destruct i as [|i]; cbn in *; [congruence|]. apply IH; assumption. }
    assert (L : length (map mk (combine l1 l2)) = length l1) by (rewrite map_length, combine_length, hl; apply Nat.min_id).
    unfold finish. split.
    - intros h. exists (map mk (combine l1 l2)). rewrite <- hl. split; [exact L|]. split.
      + intros i v1 v2 a e1 e2 e3. rewrite (N i v1 v2 e1 e2) in e3. inversion e3; subst. apply P.
      + destruct (call_all f (map mk (combine l1 l2)) s) as [[vs0|e] s0] eqn:ec; inversion h; subst. apply call_all_ok. exact ec.
    - intros (argss & la & g & c). assert (e : argss = map mk (combine l1 l2)); [|subst; apply call_all_ok in c; rewrite c; reflexivity].
      apply nth_error_ext. intros i. destruct (nth_error l1 i) as [v1|] eqn:e1.
      + assert (i < length l1) by (apply nth_error_Some; congruence). destruct (nth_error l2 i) as [v2|] eqn:e2; [|apply nth_error_None in e2; lia].
        rewrite (N i v1 v2 e1 e2). destruct (nth_error argss i) as [a|] eqn:e3; [|apply nth_error_None in e3; lia]. f_equal.
        destruct (g i v1 v2 a e1 e2 e3) as (g1 & g2 & g3 & g4). destruct (P v1 v2) as (p1 & p2 & p3 & p4). apply nth_error_ext. intros j.
        destruct (Nat.eq_dec j n1) as [->|m1]; [congruence|]. destruct (Nat.eq_dec j n2) as [->|m2]; [congruence|]. rewrite (g4 j m1 m2), (p4 j m1 m2). reflexivity.
      + apply nth_error_None in e1. assert (x : nth_error argss i = None) by (apply nth_error_None; lia). rewrite x. symmetry. apply nth_error_None. lia.
  Qed.
  (** Arrays of different sizes: InvalidValue, and no call is made. *)
  Theorem take_mismatch : forall n1 n2 fl args s a1 a2 l1 l2, nth_error args n1 = Some a1 -> as_seq a1 = Some l1 ->
    nth_error args n2 = Some a2 -> as_seq a2 = Some l2 -> length l1 <> length l2 -> length l2 <> 1 ->
    take_arrays as_seq iter f n1 (Some n2) fl args s = (Err InvalidValue, s).
  Proof.
    intros n1 n2 fl args s a1 a2 l1 l2 h1 h2 h3 h4 hl n1l. unfold take_arrays. rewrite h1, h2, h3, h4.
    destruct (Nat.eqb_spec (length l2) 1); [congruence|]. destruct (Nat.eqb_spec (length l1) (length l2)); [congruence|reflexivity].
  Qed.
  (** The first exception ends the loop: the calls before it were made, those after it not. *)
  Theorem take_stops : forall n1 n2 args s a1 l1 e s', nth_error args n1 = Some a1 -> as_seq a1 = Some l1 -> Ignored args n2 ->
    (take_arrays as_seq iter f n1 n2 false args s = (Err e, s') <->
     exists pre v post vs s1 argss args', l1 = pre ++ v :: post /\ Forall2 (Replaced args n1) pre argss /\ Calls argss s vs s1 /\
       Replaced args n1 v args' /\ f args' s1 = (Err e, s')).
  Proof.
    intros n1 n2 args s a1 l1 e s' h1 h2 ig. rewrite (take_one n1 n2 false args s a1 l1 h1 h2 ig).
    assert (l : n1 < length args) by (apply nth_error_Some; congruence).
    assert (F : forall l1, Forall2 (Replaced args n1) l1 (map (fun v => set_arg n1 v args) l1)). { induction l0 as [|v l0 IH]; cbn; constructor; [apply set_arg_replaced; exact l|apply IH]. }
    assert (U1 : forall v a', Replaced args n1 v a' -> a' = set_arg n1 v args).
    { intros v a' r. destruct (set_arg_replaced n1 v args l) as (c1 & c2 & c3). destruct r as (r1 & r2 & r3). apply nth_error_ext. intros j.
      destruct (Nat.eq_dec j n1) as [->|n]; [congruence|rewrite (r3 j n), (c3 j n); reflexivity]. }
    assert (U : forall l0 argss, Forall2 (Replaced args n1) l0 argss -> argss = map (fun v => set_arg n1 v args) l0).
    { intros l0 argss G. induction G as [|v a' l0 argss r G IH]; [reflexivity|]. cbn. rewrite IH. f_equal. apply U1. exact r. }
    assert (Q : finish iter false (call_all f (map (fun v => set_arg n1 v args) l1) s) = (Err e, s') <-> call_all f (map (fun v => set_arg n1 v args) l1) s = (Err e, s')).
    { unfold finish. destruct (call_all f (map (fun v => set_arg n1 v args) l1) s) as [[vs0|e0] s0]; split; congruence. }
    rewrite Q, call_all_err. split.
    - intros (pre & a & post & vs & s1 & em & c & x).
      assert (sp : exists p v q, l1 = p ++ v :: q /\ map (fun v => set_arg n1 v args) p = pre /\ set_arg n1 v args = a).
      { revert em. clear. revert pre. induction l1 as [|y l1 IH]; intros pre em; [destruct pre; discriminate|]. destruct pre as [|p pre]; cbn in em; inversion em; subst.
        - exists [], y, l1. auto.
        - destruct (IH pre) as (p' & v & q & -> & e2 & e3); [assumption|]. exists (y :: p'), v, q. cbn. rewrite e2. auto. }
      destruct sp as (p & v & q & -> & <- & <-). exists p, v, q, vs, s1, (map (fun v => set_arg n1 v args) p), (set_arg n1 v args).
      split; [reflexivity|]. split; [apply F|]. split; [exact c|]. split; [apply set_arg_replaced; exact l|exact x].
    - intros (p & v & q & vs & s1 & argss & args' & -> & G & c & r & x). rewrite (U _ _ G) in c. rewrite (U1 _ _ r) in x.
      exists (map (fun v => set_arg n1 v args) p), (set_arg n1 v args), (map (fun v => set_arg n1 v args) q), vs, s1. rewrite map_app. auto.
  Qed.
  (** With [flatten]: the concatenation of the results. *)
  Theorem take_flatten : forall n1 n2 args s vs s', take_arrays as_seq iter f n1 n2 false args s = (Ok (Many vs), s') ->
    forall ls, Forall2 (fun v l => iter v = Ok l) vs ls -> take_arrays as_seq iter f n1 n2 true args s = (Ok (Many (concat ls)), s').
  Proof.
    intros n1 n2 args s vs s' h ls F.
    assert (C : concat_iter iter vs = Ok (concat ls)). { clear h. induction F as [|v l vs ls e F IH]; [reflexivity|]. cbn. rewrite e. cbn. rewrite IH. reflexivity. }
    assert (K : forall r, finish iter false r = (Ok (Many vs), s') -> finish iter true r = (Ok (Many (concat ls)), s')).
    { intros [[vs0|e] s0] q; inversion q; subst. cbn. rewrite C. reflexivity. }
    unfold take_arrays in *. destruct (nth_error args n1) as [a1|]; [|discriminate]. destruct (as_seq a1) as [l1|]; [|destruct (f args s) as [[v|e] s0]; discriminate].
    destruct n2 as [n|]; [|apply K; exact h]. destruct (nth_error args n) as [a2|]; [|discriminate]. destruct (as_seq a2) as [l2|]; [|apply K; exact h].
    destruct (Nat.eqb (length l2) 1); [apply K; exact h|]. destruct (Nat.eqb (length l1) (length l2)); [apply K; exact h|discriminate].
  Qed.
End TakeArrays.
Print Assumptions take_scalar.
Print Assumptions take_each.
Print Assumptions take_pairs.
Print Assumptions take_mismatch.
Print Assumptions take_stops.
Print Assumptions take_flatten.

(** values for the examples: numbers and lists *)
Inductive tv := TN (n : nat) | TL (l : list tv).
Definition tv_seq (v : tv) : option (list tv) := match v with TL l => Some l | _ => None end.
Definition tv_iter (v : tv) : res (list tv) := match v with TL l => Ok l | _ => Err TypeError end.
(** pairs its two arguments, and logs the call *)
Definition tv_pair (args : list tv) (log : list (list tv)) : res tv * list (list tv) := (Ok (TL args), args :: log).
Example take_pairs_case : take_arrays tv_seq tv_iter tv_pair 0 (Some 1) false [TL [TN 1; TN 2]; TL [TN 3; TN 4]] [] =
  (Ok (Many [TL [TN 1; TN 3]; TL [TN 2; TN 4]]), [[TN 2; TN 4]; [TN 1; TN 3]]). Proof. reflexivity. Qed.
Example take_flatten_case : take_arrays tv_seq tv_iter tv_pair 0 None true [TL [TN 1; TN 2]; TN 9] [] =
  (Ok (Many [TN 1; TN 9; TN 2; TN 9]), [[TN 2; TN 9]; [TN 1; TN 9]]). Proof. reflexivity. Qed.
(** Two arrays of one element have the same size but are not zipped: the function receives the second array itself. And a second
    argument that is not given by position raises. *)
Theorem take_single_refuted :
  (exists v1 v2, fst (take_arrays tv_seq tv_iter tv_pair 0 (Some 1) false [TL [v1]; TL [v2]] []) = Ok (Many [TL [v1; TL [v2]]])) /\
  (forall l s, take_arrays tv_seq tv_iter tv_pair 0 (Some 1) false [TL l] s = (Err IndexError, s)).
Proof. split; [exists (TN 1), (TN 2); reflexivity|reflexivity]. Qed.
Print Assumptions take_single_refuted.

(** A decorated method cannot be called: it is called without its instance, and its body never runs. *)
Theorem take_method_refuted : forall V S as_seq iter k (body : list V -> S -> res V * S) n1 n2 fl obj args s,
  length (obj :: args) = k -> forall r, fst (take_arrays_method as_seq iter k body n1 n2 fl obj args s) = Ok r ->
  r = Many [] /\ snd (take_arrays_method as_seq iter k body n1 n2 fl obj args s) = s.
Proof.
  intros V S as_seq iter k body n1 n2 fl obj args s hk r. unfold take_arrays_method.
  assert (bad : forall args', length args' = length args -> forall s', py_function k body args' s' = (Err TypeError, s')).
  { intros args' h s'. unfold py_function. cbn in hk. destruct (Nat.eqb_spec (length args') k); [lia|reflexivity]. }
  assert (len : forall i v l, length (set_arg (V := V) i v l) = length l). { intros i v l. revert i. induction l as [|x l IH]; intros [|i]; cbn; try reflexivity. rewrite IH. reflexivity. }
  assert (K : forall argss r, (forall a, In a argss -> length a = length args) -> fst (finish iter fl (call_all (py_function k body) argss s)) = Ok r ->
    r = Many [] /\ snd (finish iter fl (call_all (py_function k body) argss s)) = s).
  { intros [|a argss] r0 H h; cbn [call_all] in *; [destruct fl; cbn in *; split; congruence|]. rewrite (bad a (H a (or_introl eq_refl)) s) in *. cbn in h. discriminate. }
  unfold take_arrays. destruct (nth_error args n1) as [a1|]; [|discriminate].
  destruct (as_seq a1) as [l1|]; [|rewrite (bad args eq_refl s); discriminate].
  assert (one : fst (finish iter fl (call_all (py_function k body) (map (fun v => set_arg n1 v args) l1) s)) = Ok r ->
    r = Many [] /\ snd (finish iter fl (call_all (py_function k body) (map (fun v => set_arg n1 v args) l1) s)) = s).
  { apply K. intros a i. apply in_map_iff in i as (v & <- & _). apply len. }
  destruct n2 as [n2|]; [|exact one]. destruct (nth_error args n2) as [a2|]; [|discriminate]. destruct (as_seq a2) as [l2|]; [|exact one].
  destruct (Nat.eqb (length l2) 1); [exact one|]. destruct (Nat.eqb (length l1) (length l2)); [|discriminate].
  apply K. intros a i. apply in_map_iff in i as (v & <- & _). rewrite !len. reflexivity.
Qed.
Print Assumptions take_method_refuted.
Example take_method_example : fst (take_arrays_method tv_seq tv_iter 2 tv_pair 0 None false (TN 7) [TL [TN 1; TN 2]] []) = Err TypeError /\
  fst (take_arrays tv_seq tv_iter tv_pair 1 None false [TN 7; TL [TN 1; TN 2]] []) <> Err TypeError.
Proof. split; [reflexivity|]. cbn. discriminate. Qed.

(** the declared properties are checked before the call *)
Theorem assert_prop_iff : forall V R props (attrs : dict string (option V)) (call : res R),
  assert_prop V R props attrs call = (if forallb (fun p => match dget p attrs with Some (Some _) => true | _ => false end) props then call else Err AttributeError).
Proof. intros V R props attrs call. induction props as [|p ps IH]; [reflexivity|]. cbn. destruct (dget p attrs) as [[v|]|]; [exact IH|reflexivity|reflexivity]. Qed.
Print Assumptions assert_prop_iff.

(** * C52 *)
Section MemoProp.
  Context {V S : Type} (fget : string -> nat -> S -> res V * S).
  Notation step := (mem_step fget). Notation run := (mem_run fget).
  Notation mem_op := (mem_op V). Notation mem_st := (mem_st V S).
  (** the operation changes the stored value of this property of this instance *)
  Definition touches (i : nat) (p : string) (x : mem_op) : bool :=
    match x with MRead _ _ => false | MReset j q => beq (i, p) (j, q) | MAssign j q _ => beq (i, p) (j, q) end.
  Definition is_read (i : nat) (p : string) (x : mem_op) : bool := match x with MRead j q => beq (i, p) (j, q) | _ => false end.
  Definition evals (i : nat) (p : string) (st : mem_st) : nat := length (filter (beq (i, p)) (m_evals st)).

  Lemma step_keeps st x i p v : dget (i, p) (m_dict st) = Some v -> touches i p x = false ->
    dget (i, p) (m_dict (snd (step st x))) = Some v /\ evals i p (snd (step st x)) = evals i p st.
  Proof.
    intros h t. destruct x as [j q|j q|j q w]; cbn [mem_step].
    - destruct (dget (j, q) (m_dict st)) as [u|] eqn:e; [auto|]. assert (n : (i, p) <> (j, q)) by congruence.
      assert (b : beq (i, p) (j, q) = false) by (destruct (beq_spec _ (i, p) (j, q)); congruence).
      destruct (fget q j (m_state st)) as [[u|x] s']; cbn [snd m_dict]; unfold evals; cbn [m_evals filter]; rewrite b; (split; [|reflexivity]); [rewrite dget_dset_other by congruence; exact h|exact h].
    - cbn [touches] in t. cbn [snd m_dict]. split; [|reflexivity]. rewrite dget_ddel. destruct (eq_dec (i, p) (j, q)) as [e|n]; [|exact h]. rewrite e, beq_refl in t. discriminate.
    - cbn [touches] in t. cbn [snd m_dict]. split; [|reflexivity]. apply (beq_false _ (i, p) (j, q)) in t. rewrite dget_dset_other by congruence. exact h.
  Qed.
  (** After a successful read, until the property is reset (or assigned) on this instance: every read gives the same value and
      the getter is not evaluated. *)
  Theorem memo_once : forall st i p v xs, fst (step st (MRead i p)) = Ok (Some v) -> forallb (fun x => negb (touches i p x)) xs = true ->
    let st1 := snd (step st (MRead i p)) in
    (forall n, nth_error xs n = Some (MRead i p) -> nth_error (fst (run st1 xs)) n = Some (Ok (Some v))) /\
    evals i p (snd (run st1 xs)) = evals i p st1.
  Proof.
    intros st i p v xs h t st1.
    assert (d : dget (i, p) (m_dict st1) = Some v).
    { unfold st1. cbn [mem_step] in *. destruct (dget (i, p) (m_dict st)) as [u|] eqn:e; [cbn in *; congruence|].
      destruct (fget p i (m_state st)) as [[u|x] s']; cbn in *; [|discriminate]. inversion h; subst. apply dget_dset_same. }
    clear h. clearbody st1. revert st1 d. induction xs as [|x xs IH]; intros st1 d; [split; [intros [|n]; discriminate|reflexivity]|].
    cbn in t. apply andb_prop in t. destruct t as [t1 t2]. apply Bool.negb_true_iff in t1. cbn [mem_run].
    destruct (step_keeps st1 x i p v d t1) as [d' e']. destruct (step st1 x) as [r st2] eqn:es. cbn [snd] in *.
    specialize (IH t2 st2 d'). destruct (mem_run fget st2 xs) as [rs st3] eqn:er. cbn [fst snd] in *. destruct IH as [g1 g2]. split; [|congruence].
    intros [|n] hn; [|apply g1; exact hn]. cbn in hn. inversion hn; subst. cbn in es. rewrite d in es. inversion es; reflexivity.
  Qed.
  (** What happens to other instances or other properties changes nothing: the value stored for one property of one instance
      depends on operations on it only. *)
  Theorem memo_isolated : forall st x i p, touches i p x = false -> is_read i p x = false ->
    dget (i, p) (m_dict (snd (step st x))) = dget (i, p) (m_dict st).
  Proof.
    intros st x i p t r. destruct x as [j q|j q|j q w]; cbn [mem_step].
    - cbn in r. apply (beq_false _ (i, p) (j, q)) in r. destruct (dget (j, q) (m_dict st)); [reflexivity|]. destruct (fget q j (m_state st)) as [[u|x] s']; cbn; [rewrite dget_dset_other by congruence|]; reflexivity.
    - cbn in t |- *. apply (beq_false _ (i, p) (j, q)) in t. rewrite dget_ddel. destruct (eq_dec (i, p) (j, q)); [contradiction|reflexivity].
    - cbn in t |- *. apply (beq_false _ (i, p) (j, q)) in t. rewrite dget_dset_other by congruence. reflexivity.
  Qed.
  (** A reset makes the next read evaluate the getter again; a getter that raises is not remembered. *)
  Theorem memo_reset : forall st i p, let st1 := snd (step st (MReset i p)) in
    fst (step st1 (MRead i p)) = (match fst (fget p i (m_state st1)) with Ok v => Ok (Some v) | Err e => Err e end) /\ evals i p (snd (step st1 (MRead i p))) = Datatypes.S (evals i p st1).
  Proof.
    intros st i p st1. unfold st1. cbn. rewrite dget_ddel. destruct (eq_dec (i, p) (i, p)); [|congruence].
    destruct (fget p i (m_state st)) as [[v|e0] s']; cbn; unfold evals; cbn [m_evals filter]; rewrite beq_refl; split; reflexivity.
  Qed.
  Theorem memo_failure : forall st i p e, fst (step st (MRead i p)) = Err e -> dget (i, p) (m_dict (snd (step st (MRead i p)))) = None.
  Proof.
    intros st i p e h. cbn in *. destruct (dget (i, p) (m_dict st)) eqn:d; [discriminate|]. destruct (fget p i (m_state st)) as [[v|e0] s']; cbn in *; [discriminate|exact d].
  Qed.
End MemoProp.
Print Assumptions memo_once.
Print Assumptions memo_isolated.
Print Assumptions memo_reset.
Print Assumptions memo_failure.
(** a getter counting its evaluations *)
Definition count_get (p : string) (i : nat) (s : nat) : res nat * nat := (Ok (s * 10 + i), S s).
Definition mem0 : mem_st nat nat := {| m_dict := []; m_state := 7; m_evals := [] |}.
Example memo_case : fst (mem_run count_get mem0 [MRead 0 "x"; MRead 1 "x"; MRead 0 "x"; MReset 0 "x"; MRead 0 "x"; MRead 1 "x"]%string) =
  [Ok (Some 70); Ok (Some 81); Ok (Some 70); Ok None; Ok (Some 90); Ok (Some 81)]. Proof. reflexivity. Qed.
(** The property is documented as read-only, but assigning it is accepted and read back *)
Theorem memo_read_only_refuted : forall V S (fget : string -> nat -> S -> res V * S) st i p v,
  fst (mem_step fget st (MAssign i p v)) = Ok None /\ fst (mem_step fget (snd (mem_step fget st (MAssign i p v))) (MRead i p)) = Ok (Some v).
Proof. intros. split; [reflexivity|]. cbn. rewrite dget_dset_same. reflexivity. Qed.
Print Assumptions memo_read_only_refuted.

(** ** memoised methods *)
(** A memoised method that does not call its parent's gives, in every history of calls, the result of the method. *)
Theorem method_transparent : forall A V (EA : EqDec A) size (g : A -> res V) bs xs,
  fst (method_run size (Leaf g :: bs) xs None) = map g xs.
Proof.
  intros A V EA size g bs xs.
  assert (G : forall xs o, (o = None \/ exists c, o = Some (Leaf g :: bs, c) /\ forall a v, dget a c = Some v -> g a = Ok v) -> fst (method_run size (Leaf g :: bs) xs o) = map g xs).
  { clear xs. induction xs as [|a xs IH]; intros o h; [reflexivity|]. cbn [method_run map].
    assert (S1 : exists o1, method_call size (Leaf g :: bs) a o = (g a, o1) /\ exists c, o1 = Some (Leaf g :: bs, c) /\ forall a v, dget a c = Some v -> g a = Ok v).
    { assert (R : forall c, (forall a v, dget a c = Some v -> g a = Ok v) -> exists c', record size (length (Leaf g :: bs)) a (g a) (Some (Leaf g :: bs, c)) = Some (Leaf g :: bs, c') /\ forall a v, dget a c' = Some v -> g a = Ok v).
      { intros c hc. unfold record. destruct (g a) as [v|e] eqn:eg; [|exists c; auto]. rewrite Nat.eqb_refl. eexists. split; [reflexivity|]. intros a' v' h'. apply dget_firstn in h'. cbn in h'. destruct (eq_dec a' a) as [->|n]; [congruence|apply hc; exact h']. }
      destruct h as [->|(c & -> & hc)].
      - cbn [method_call wrapped]. destruct (R []) as (c' & e & hc'); [discriminate|]. eexists. split; [reflexivity|]. exists c'. auto.
      - cbn [method_call]. destruct (dget a c) as [v|] eqn:d.
        + rewrite (hc a v d). eexists. split; [reflexivity|]. eexists. split; [reflexivity|]. intros a' v'. cbn. destruct (eq_dec a' a) as [->|n]; [intros q; apply hc; congruence|]. rewrite dget_ddel. destruct (eq_dec a' a); [contradiction|]. apply hc.
        + destruct (R c hc) as (c' & e & hc'). eexists. split; [reflexivity|]. exists c'. auto. }
    destruct S1 as (o1 & e1 & c & hc). rewrite e1. specialize (IH o1 (or_intror (ex_intro _ c hc))). destruct (method_run size (Leaf g :: bs) xs o1) as [rs o2]. cbn in *. rewrite IH. reflexivity. }
  apply G. left. reflexivity.
Qed.
Print Assumptions method_transparent.
(** The first call on an instance gives the result of the method in every case. *)
Theorem method_first_call : forall A V (EA : EqDec A) size (bs : list (body A V)) a, fst (method_call size bs a None) = meaning bs a.
Proof.
  intros A V EA size bs a. cbn [method_call].
  assert (W : forall (bs : list (body A V)) o, fst (wrapped size bs a o) = meaning bs a).
  { clear bs. induction bs as [|b bs IH]; intros o; [reflexivity|]. destruct b as [g|g]; cbn [wrapped meaning]; [reflexivity|].
    specialize (IH (Some (Super g :: bs, []))). destruct (wrapped size bs a (Some (Super g :: bs, []))) as [[v|e] o2]; cbn in *; rewrite <- IH; reflexivity. }
  apply W.
Qed.
Print Assumptions method_first_call.
(** When an overriding method calls the memoised method it overrides, the instance is left with the parent's method: the second
    call gives the parent's result *)
Theorem method_super_refuted : forall A V (EA : EqDec A) size (g : A -> V -> res V) (h : A -> res V) bs a, forall v, h a = Ok v ->
  forall b, dget b (firstn size [(a, v)]) = None -> fst (method_call size (Super g :: Leaf h :: bs) b (snd (method_call size (Super g :: Leaf h :: bs) a None))) = h b.
Proof.
  intros A V EA size g h bs a v e b hb. cbn [method_call wrapped]. rewrite e. unfold record at 2. cbn [length]. rewrite Nat.eqb_refl.
  assert (n : Nat.eqb (S (length bs)) (S (S (length bs))) = false) by (apply Nat.eqb_neq; lia).
  unfold record. destruct (g a v) as [w|x]; cbn [length snd]; rewrite ?n; cbn [method_call]; rewrite hb; reflexivity.
Qed.
Print Assumptions method_super_refuted.
Example method_super_case : let bs := [Super (fun (_ : nat) v => Ok (v + 100)); Leaf (fun a => Ok a)] in
  fst (method_run 128 bs [1; 2; 1] None) = [Ok 101; Ok 2; Ok 1] /\ meaning bs 2 = Ok 102.
Proof. split; reflexivity. Qed.
