(** Shared vocabulary: Python exceptions as values, insertion-ordered dictionaries, sets as duplicate-free
    lists.  Nothing here models a particular function of /repo; it is the part of the Python data model the
    other files are written in. *)
From Coq Require Export Arith ZArith String Ascii Bool Lia List.
From Coq Require Import Permutation.
Export ListNotations.

(** Decidable equality: Python's [==] on hashable keys. *)
Class EqDec (A : Type) := eq_dec : forall x y : A, {x = y} + {x <> y}.
#[global] Instance EqDec_nat : EqDec nat := Nat.eq_dec.
#[global] Instance EqDec_Z : EqDec Z := Z.eq_dec.
#[global] Instance EqDec_string : EqDec string := string_dec.
#[global] Instance EqDec_ascii : EqDec ascii := ascii_dec.
#[global] Instance EqDec_bool : EqDec bool := bool_dec.
#[global] Instance EqDec_prod A B (EA : EqDec A) (EB : EqDec B) : EqDec (A * B).
Proof. intros [a b] [a' b']. destruct (eq_dec a a'); [destruct (eq_dec b b')|]; [left|right|right]; congruence. Defined.
#[global] Instance EqDec_option A (EA : EqDec A) : EqDec (option A).
Proof. intros [a|] [b|]; try (right; congruence); [|left; reflexivity].
       destruct (eq_dec a b); [left|right]; congruence. Defined.
#[global] Instance EqDec_list A (EA : EqDec A) : EqDec (list A) := list_eq_dec (fun x y => eq_dec x y).

(** Boolean equality test derived from [EqDec]. *)
Definition beq {A} {E : EqDec A} (x y : A) : bool := if eq_dec x y then true else false.

Lemma beq_true {A} (E : EqDec A) (x y : A) : beq x y = true <-> x = y.
Proof. unfold beq. destruct (eq_dec x y); split; congruence. Qed.
Lemma beq_false {A} (E : EqDec A) (x y : A) : beq x y = false <-> x <> y.
Proof. unfold beq. destruct (eq_dec x y); split; congruence. Qed.
Lemma beq_refl {A} (E : EqDec A) (x : A) : beq x x = true.
Proof. apply beq_true. reflexivity. Qed.
Lemma beq_spec {A} (E : EqDec A) (x y : A) : reflect (x = y) (beq x y).
Proof. unfold beq. destruct (eq_dec x y); constructor; assumption. Qed.
Lemma beq_sym {A} (E : EqDec A) (x y : A) : beq x y = beq y x.
Proof. destruct (beq_spec E x y), (beq_spec E y x); congruence. Qed.

(** The exception classes that the modelled functions raise or let escape. *)
Inductive exn : Set :=
| KeyError | IndexError | TypeError | ValueError | AttributeError | AssertionError | NameError
| UnboundLocalError | StopIteration | RecursionError
| InvalidValue | ConversionError | ValidationError | InvalidOperation
| UserError (n : nat)         (** an exception raised by user-supplied code *)
| OutOfFuel.                  (** never raised by Python: marks exhausted model fuel *)

#[global] Instance EqDec_exn : EqDec exn.
Proof. intros x y. unfold EqDec. decide equality. apply Nat.eq_dec. Defined.

(** Result of a Python call: a value or a raised exception. *)
Inductive res (A : Type) : Type := Ok (a : A) | Err (e : exn).
Arguments Ok {A} a.
Arguments Err {A} e.

Definition rbind {A B} (r : res A) (f : A -> res B) : res B :=
  match r with Ok a => f a | Err e => Err e end.
Notation "'do' x <- r ; k" := (rbind r (fun x => k)) (at level 200, x name, r at level 100, k at level 200).

Definition is_ok {A} (r : res A) : bool := match r with Ok _ => true | Err _ => false end.

(** Membership test ([x in l]). *)
Fixpoint mem {A} {E : EqDec A} (x : A) (l : list A) : bool :=
  match l with [] => false | y :: l' => if eq_dec x y then true else mem x l' end.

Lemma mem_In {A} (E : EqDec A) (x : A) l : mem x l = true <-> In x l.
Proof. induction l as [|y l IH]; simpl; [split; [discriminate|tauto]|].
       destruct (eq_dec x y) as [->|n]; [tauto|]. rewrite IH. split; [tauto|]. intros [e|i]; [congruence|exact i]. Qed.
Lemma mem_not_In {A} (E : EqDec A) (x : A) l : mem x l = false <-> ~ In x l.
Proof. rewrite <- (mem_In E). destruct (mem x l); split; congruence. Qed.
Lemma mem_spec {A} (E : EqDec A) (x : A) l : reflect (In x l) (mem x l).
Proof. destruct (mem x l) eqn:H; constructor; [apply mem_In in H|apply mem_not_In in H]; assumption. Qed.
Lemma mem_app {A} (E : EqDec A) (x : A) l1 l2 : mem x (l1 ++ l2) = mem x l1 || mem x l2.
Proof. induction l1 as [|y l IH]; simpl; [reflexivity|]. destruct (eq_dec x y); [reflexivity|apply IH]. Qed.

(** Set of first occurrences, in order: what a [viewed] set plus [yield] produces. *)
Fixpoint dedup_from {A} {E : EqDec A} (seen : list A) (l : list A) : list A :=
  match l with
  | [] => []
  | x :: l' => if mem x seen then dedup_from seen l' else x :: dedup_from (x :: seen) l'
  end.
Definition dedup {A} {E : EqDec A} (l : list A) : list A := dedup_from [] l.

Lemma dedup_from_In {A} (E : EqDec A) (x : A) l : forall seen,
  In x (dedup_from seen l) <-> In x l /\ ~ In x seen.
Proof.
  induction l as [|y l IH]; intros seen; simpl; [tauto|].
  destruct (mem_spec E y seen) as [i|n]; [rewrite IH|simpl; rewrite IH; simpl].
  - split; [tauto|]. intros [[->|h] k]; [tauto|tauto].
  - split; [intros [->|[h k]]; tauto|]. intros [[->|h] k]; [tauto|]. destruct (eq_dec y x); tauto.
Qed.
Lemma dedup_In {A} (E : EqDec A) (x : A) l : In x (dedup l) <-> In x l.
Proof. unfold dedup. rewrite dedup_from_In. simpl. tauto. Qed.
Lemma dedup_from_NoDup {A} (E : EqDec A) (l : list A) : forall seen, NoDup (dedup_from seen l).
Proof. induction l as [|y l IH]; intros seen; simpl; [constructor|].
       destruct (mem y seen); [apply IH|]. constructor; [|apply IH].
       rewrite dedup_from_In. simpl. tauto. Qed.
Lemma dedup_NoDup {A} (E : EqDec A) (l : list A) : NoDup (dedup l).
Proof. apply dedup_from_NoDup. Qed.
Lemma dedup_from_id {A} (E : EqDec A) (l : list A) : forall seen,
  NoDup l -> (forall x, In x l -> ~ In x seen) -> dedup_from seen l = l.
Proof. induction l as [|y l IH]; intros seen nd dj; simpl; [reflexivity|].
       inversion nd as [|? ? ni nd']; subst.
       destruct (mem_spec E y seen) as [i|n]; [destruct (dj y); simpl; auto|].
       f_equal. apply IH; [exact nd'|]. intros x hx [->|i]; [tauto|]. apply (dj x); simpl; auto. Qed.
Lemma dedup_id {A} (E : EqDec A) (l : list A) : NoDup l -> dedup l = l.
Proof. intros nd. apply dedup_from_id; [exact nd|]. simpl. tauto. Qed.

(** * Python dictionaries: association lists in insertion order. *)
Definition dict (K V : Type) : Type := list (K * V).

Section Dict.
  Context {K V : Type} {EK : EqDec K}.

  (** [d.get(k)] *)
  Fixpoint dget (k : K) (d : dict K V) : option V :=
    match d with [] => None | (k', v) :: d' => if eq_dec k k' then Some v else dget k d' end.

  (** [d[k] = v]: overwrite in place or append. *)
  Fixpoint dset (k : K) (v : V) (d : dict K V) : dict K V :=
    match d with
    | [] => [(k, v)]
    | (k', v') :: d' => if eq_dec k k' then (k', v) :: d' else (k', v') :: dset k v d'
    end.

  (** [del d[k]] when present (removal of every binding; dictionaries have at most one). *)
  Fixpoint ddel (k : K) (d : dict K V) : dict K V :=
    match d with
    | [] => []
    | (k', v') :: d' => if eq_dec k k' then ddel k d' else (k', v') :: ddel k d'
    end.

  Definition dkeys (d : dict K V) : list K := map fst d.
  Definition dvals (d : dict K V) : list V := map snd d.
  Definition dmem (k : K) (d : dict K V) : bool := match dget k d with Some _ => true | None => false end.

  (** A dictionary has one entry per key. *)
  Definition dwf (d : dict K V) : Prop := NoDup (dkeys d).

  Lemma dget_In (k : K) (d : dict K V) v : dget k d = Some v -> In (k, v) d.
  Proof. induction d as [|[k' v'] d IH]; simpl; [discriminate|].
         destruct (eq_dec k k') as [->|n]; [injection 1 as ->; auto|auto]. Qed.
  Lemma dget_None (k : K) (d : dict K V) : dget k d = None <-> ~ In k (dkeys d).
  Proof. induction d as [|[k' v'] d IH]; simpl; [tauto|].
         destruct (eq_dec k k') as [->|n]; [split; [discriminate|tauto]|]. rewrite IH.
         split; [intros h [e|i]; [congruence|tauto]|tauto]. Qed.
  Lemma dget_Some_key (k : K) (d : dict K V) v : dget k d = Some v -> In k (dkeys d).
  Proof. intros h. apply dget_In in h. apply (in_map fst) in h. exact h. Qed.
  Lemma dkeys_dget (k : K) (d : dict K V) : In k (dkeys d) -> exists v, dget k d = Some v.
  Proof. intros h. destruct (dget k d) as [v|] eqn:e; [eauto|]. apply dget_None in e. tauto. Qed.
  Lemma dmem_In (k : K) (d : dict K V) : dmem k d = true <-> In k (dkeys d).
  Proof. unfold dmem. destruct (dget k d) as [v|] eqn:e.
         - split; [intros _; eapply dget_Some_key; eassumption|reflexivity].
         - apply dget_None in e. split; [discriminate|tauto]. Qed.
  Lemma dmem_false (k : K) (d : dict K V) : dmem k d = false <-> ~ In k (dkeys d).
  Proof. rewrite <- dmem_In. destruct (dmem k d); split; congruence. Qed.
  Lemma In_dget (k : K) v (d : dict K V) : dwf d -> In (k, v) d -> dget k d = Some v.
  Proof. unfold dwf. induction d as [|[k' v'] d IH]; simpl; [tauto|]. intros nd h.
         inversion nd as [|? ? ni nd']; subst. destruct (eq_dec k k') as [->|n].
         - destruct h as [e|i]; [congruence|]. destruct ni. apply (in_map fst) in i. exact i.
         - destruct h as [e|i]; [congruence|auto]. Qed.

  Lemma dget_dset_same (k : K) v (d : dict K V) : dget k (dset k v d) = Some v.
  Proof. induction d as [|[k' v'] d IH]; simpl; [destruct (eq_dec k k); congruence|].
         destruct (eq_dec k k') as [->|n]; simpl; [destruct (eq_dec k' k'); congruence|].
         destruct (eq_dec k k'); congruence. Qed.
  Lemma dget_dset_other (k k' : K) v (d : dict K V) : k' <> k -> dget k' (dset k v d) = dget k' d.
  Proof. intros n. induction d as [|[k2 v2] d IH]; simpl; [destruct (eq_dec k' k); congruence|].
         destruct (eq_dec k k2) as [->|n2]; simpl.
         - destruct (eq_dec k' k2); congruence.
         - rewrite IH. reflexivity. Qed.
  Lemma dget_dset (k k' : K) v (d : dict K V) :
    dget k' (dset k v d) = if eq_dec k' k then Some v else dget k' d.
  Proof. destruct (eq_dec k' k) as [->|n]; [apply dget_dset_same|apply dget_dset_other; exact n]. Qed.
  Lemma dkeys_dset (k : K) v (d : dict K V) :
    dkeys (dset k v d) = if mem k (dkeys d) then dkeys d else dkeys d ++ [k].
  Proof. induction d as [|[k' v'] d IH]; simpl; [reflexivity|].
         destruct (eq_dec k k') as [->|n]; simpl; [reflexivity|].
         fold (dkeys (dset k v d)). fold (dkeys d). rewrite IH. destruct (mem k (dkeys d)); reflexivity. Qed.
  Lemma In_dkeys_dset (k k' : K) v (d : dict K V) : In k' (dkeys (dset k v d)) <-> k' = k \/ In k' (dkeys d).
  Proof. rewrite dkeys_dset. destruct (mem_spec EK k (dkeys d)) as [i|n].
         - split; [tauto|]. intros [->|h]; assumption.
         - rewrite in_app_iff. simpl. split; [intros [h|[h|[]]]; auto|intros [->|h]; auto]. Qed.
  Lemma dwf_dset (k : K) v (d : dict K V) : dwf d -> dwf (dset k v d).
  Proof. unfold dwf. rewrite dkeys_dset. destruct (mem_spec EK k (dkeys d)) as [i|n]; [auto|].
         intros nd. apply (Permutation_NoDup (l := k :: dkeys d)); [apply Permutation_cons_append|].
         constructor; assumption. Qed.
  Lemma dget_ddel (k k' : K) (d : dict K V) : dget k' (ddel k d) = if eq_dec k' k then None else dget k' d.
  Proof. induction d as [|[k2 v2] d IH]; simpl; [destruct (eq_dec k' k); reflexivity|].
         destruct (eq_dec k k2) as [->|n2]; simpl.
         - rewrite IH. destruct (eq_dec k' k2); reflexivity.
         - rewrite IH. destruct (eq_dec k' k2) as [->|n3]; [|reflexivity].
           destruct (eq_dec k2 k); [congruence|reflexivity]. Qed.
  Lemma dkeys_ddel (k : K) (d : dict K V) : dkeys (ddel k d) = filter (fun x => negb (beq x k)) (dkeys d).
  Proof. induction d as [|[k' v'] d IH]; simpl; [reflexivity|]. unfold beq in *.
         destruct (eq_dec k k') as [->|n]; simpl.
         - destruct (eq_dec k' k'); [|congruence]. exact IH.
         - destruct (eq_dec k' k); [congruence|]. simpl. f_equal. exact IH. Qed.
  Lemma dwf_ddel (k : K) (d : dict K V) : dwf d -> dwf (ddel k d).
  Proof. unfold dwf. rewrite dkeys_ddel. apply NoDup_filter. Qed.
  Lemma ddel_notin (k : K) (d : dict K V) : ~ In k (dkeys d) -> ddel k d = d.
  Proof. induction d as [|[k' v'] d IH]; simpl; [reflexivity|]. intros n.
         destruct (eq_dec k k') as [->|ne]; [tauto|]. f_equal. tauto. Qed.
  Lemma dset_In_length (k : K) v (d : dict K V) : In k (dkeys d) -> length (dset k v d) = length d.
  Proof. intros h. rewrite <- (map_length fst (dset k v d)). fold (dkeys (dset k v d)). rewrite dkeys_dset.
         apply (mem_In EK) in h. rewrite h. apply map_length. Qed.
End Dict.

Lemma dwf_nil K V : @dwf K V [].
Proof. constructor. Qed.

(** Concatenation of keys of a literal keeps lookup: association list built by successive [dset]. *)
Definition dict_of {K V} {EK : EqDec K} (l : list (K * V)) : dict K V :=
  fold_left (fun d p => dset (fst p) (snd p) d) l [].

(** * Small list facts used everywhere *)
Lemma filter_all {A} (f : A -> bool) l : (forall x, In x l -> f x = true) -> filter f l = l.
Proof. induction l as [|x l IH]; simpl; [reflexivity|]. intros h. rewrite (h x); [|auto]. f_equal. auto. Qed.
Lemma filter_none {A} (f : A -> bool) l : (forall x, In x l -> f x = false) -> filter f l = [].
Proof. induction l as [|x l IH]; simpl; [reflexivity|]. intros h. rewrite (h x); auto. Qed.
Lemma filter_length_le {A} (f : A -> bool) l : length (filter f l) <= length l.
Proof. induction l as [|x l IH]; simpl; [lia|]. destruct (f x); simpl; lia. Qed.
Lemma filter_length_lt {A} (f : A -> bool) l x : In x l -> f x = false -> length (filter f l) < length l.
Proof. induction l as [|y l IH]; simpl; [tauto|]. intros [->|h] e.
       - rewrite e. pose proof (filter_length_le f l). lia.
       - specialize (IH h e). destruct (f y); simpl; lia. Qed.
Lemma forallb_false_exists {A} (f : A -> bool) l : forallb f l = false -> exists x, In x l /\ f x = false.
Proof. induction l as [|x l IH]; simpl; [discriminate|]. destruct (f x) eqn:e; simpl; [|eauto].
       intros h. destruct (IH h) as (y & hy & ey). eauto. Qed.
Lemma NoDup_app_intro {A} (l1 l2 : list A) :
  NoDup l1 -> NoDup l2 -> (forall x, In x l1 -> ~ In x l2) -> NoDup (l1 ++ l2).
Proof. induction l1 as [|x l IH]; simpl; [auto|]. intros n1 n2 dj. inversion n1 as [|? ? ni n1']; subst.
       constructor; [rewrite in_app_iff; intros [h|h]; [tauto|apply (dj x); auto]|]. apply IH; auto. Qed.
