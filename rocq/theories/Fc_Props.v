(** C93: what a foreign key refers to. *)
From Verif Require Import Base PyVal Types_Model Repo_Model Fkey_Model Fc_Model Fc_Spec.
Local Open Scope list_scope.

Lemma types_typed f ks ts : types_of f ks = Ok ts <-> Typed f ks ts.
Proof.
  revert ts. induction ks as [|k ks IH]; intros ts; cbn [types_of]; split; intros h.
  - inversion h. constructor.
  - inversion h. reflexivity.
  - destruct (f k) as [t|e] eqn:ek; cbn [rbind] in h; [|discriminate]. destruct (types_of f ks) as [l|e] eqn:el; cbn [rbind] in h; [|discriminate].
    inversion h. constructor; [exact ek|apply IH; reflexivity].
  - inversion h as [|? t ? l e h2]; subst. rewrite e. cbn [rbind]. rewrite (proj2 (IH l) h2). reflexivity.
Qed.
Lemma types_untyped f ks : Untyped f ks -> exists e, types_of f ks = Err e.
Proof.
  intros (k & e & i & ek). induction ks as [|k' ks IH]; [destruct i|]. cbn [types_of]. destruct (f k') as [t|e'] eqn:e1; [|exists e'; reflexivity]. cbn [rbind].
  destruct i as [->|i]; [congruence|]. destruct (IH i) as (e2 & ->). exists e2. reflexivity.
Qed.
Lemma keys_keys d default ks : Keys d default ks -> keys_or d default = ks.
Proof. unfold keys_or. intros [->|(-> & ->)]; reflexivity. Qed.
Lemma keys_of d default : Keys d default (keys_or d default).
Proof. unfold Keys, keys_or. destruct (d_keys d); auto. Qed.
Lemma kept d f c : f_class f = Some c -> c <> FStand -> forall st h, fst (after d (f, st) h) = f.
Proof.
  intros e n st h. revert st. induction h as [|[st'|] h IH]; intros st; [reflexivity|apply IH|]. unfold after in *. cbn [fold_left step fst snd].
  assert (g : get_class d f st = f) by (unfold get_class; rewrite e; destruct c; congruence). rewrite g. apply IH.
Qed.
Lemma no_use d f h : NoUse h -> forall st, after d (f, st) h = (f, snd (after d (f, st) h)).
Proof.
  induction h as [|[st'|] h IH]; intros n st; [reflexivity|..].
  - unfold after in *. cbn [fold_left step fst snd]. apply IH. intros i. apply n. right. exact i.
  - destruct n. left. reflexivity.
Qed.
Lemma after_app d s h1 h2 : after d s (h1 ++ h2) = after d (after d s h1) h2.
Proof. apply fold_left_app. Qed.

Lemma after_use d f st h : after d (f, st) (Use :: h) = after d (get_class d f st, st) h.
Proof. reflexivity. Qed.

(** A key declared in a schema refers to the class of the foreign schema, when it is there: its keys are those declared, with their types in
    that class, and this never changes. *)
Theorem declared_key : forall d c ks ts, d_schema d = true -> Keys d ["id"%string] ks -> Typed (c_type c) ks ts ->
  exists f, fk_build d (Built c) = Ok f /\ Stays d f (FCls c) ks ts.
Proof.
  intros d c ks ts hs hk ht. unfold fk_build. rewrite hs, (keys_keys _ _ _ hk), (proj2 (types_typed _ _ _) ht). cbn [negb]. eexists. split; [reflexivity|].
  intros st h. rewrite (kept _ _ (FCls c)); [repeat split|reflexivity|discriminate].
Qed.
(** Refuted: that without declared keys, those are the primary keys of the class. *)
Theorem primary_keys_refuted : forall d c f, d_keys d = None -> fk_build d (Built c) = Ok f -> f_keys f = ["id"%string].
Proof.
  intros d c f hk h. unfold fk_build, keys_or in h. rewrite hk in h. destruct (d_schema d); [|discriminate]. cbn [negb] in h.
  destruct (types_of _ _); [|discriminate]. inversion h. reflexivity.
Qed.
(** A key that the class does not know, a schema of which no type can be made, or none: the type of the key cannot be made. *)
Theorem unknown_key : forall d c ks, d_schema d = true -> Keys d ["id"%string] ks -> Untyped (c_type c) ks -> fk_build d (Built c) = Err AssertionError.
Proof. intros d c ks hs hk hu. unfold fk_build. rewrite hs, (keys_keys _ _ _ hk). destruct (types_untyped _ _ hu) as (e & ->). reflexivity. Qed.
Theorem unknown_schema : forall d e st, (d_schema d = true -> fk_build d (Unknown e) = Err UnboundLocalError) /\ (d_schema d = false -> fk_build d st = Err TypeError).
Proof. intros d e st. split; intros h; unfold fk_build; rewrite h; reflexivity. Qed.

(** A key to a schema under construction (a class that refers to itself) can always be made. Used for the first time once the class is there,
    it refers to that class, for ever; the keys are the same, but their types are those the stand-in gave, or else one integer. *)
Theorem circular_key : forall d stand ks, d_schema d = true -> Keys d ["id"%string] ks ->
  exists f ts, fk_build d (Building stand) = Ok f /\ (Typed stand ks ts \/ (Untyped stand ks /\ ts = [KInteger])) /\
  forall h1 c h2, NoUse h1 -> snd (after d (f, Building stand) h1) = Built c ->
    Is (fst (after d (f, Building stand) (h1 ++ Use :: h2))) (FCls c) ks ts.
Proof.
  intros d stand ks hs hk.
  assert (G : forall ts, forall h1 c h2, NoUse h1 -> let f := {| f_schema := true; f_class := Some FStand; f_keys := ks; f_types := ts |} in
    snd (after d (f, Building stand) h1) = Built c -> Is (fst (after d (f, Building stand) (h1 ++ Use :: h2))) (FCls c) ks ts).
  { intros ts h1 c h2 n f e. rewrite after_app, no_use by exact n. rewrite e. unfold after. cbn [fold_left step fst snd get_class f_class f].
    match goal with |- Is (fst (fold_left _ h2 (?g, ?s))) _ _ _ => change (Is (fst (after d (g, s) h2)) (FCls c) ks ts) end.
    rewrite (kept _ _ (FCls c)); [repeat split|reflexivity|discriminate]. }
  unfold fk_build. rewrite hs, (keys_keys _ _ _ hk). cbn [negb]. destruct (types_of stand ks) as [ts|e] eqn:et.
  - eexists. exists ts. split; [reflexivity|]. split; [left; apply types_typed; exact et|]. intros h1 c h2 n. apply (G ts). exact n.
  - eexists. exists [KInteger]. split; [reflexivity|]. split; [right; split; [|reflexivity]|].
    + clear - et. revert e et. induction ks as [|k ks IH]; intros e et; [discriminate|]. cbn [types_of] in et. destruct (stand k) as [t|e1] eqn:ek.
      * cbn [rbind] in et. destruct (types_of stand ks) as [ts|e2] eqn:e3; [discriminate|]. destruct (IH e2 eq_refl) as (k' & e' & i & h). exists k', e'. split; [right; exact i|exact h].
      * exists k, e1. split; [left; reflexivity|exact ek].
    + intros h1 c h2 n. apply (G [KInteger]). exact n.
Qed.

Section Convert.
  Variable conv : ktype -> pyval -> res pyval.
  Hypothesis integer : forall v, conv KInteger v = integer_conv v.
  Variable isa : nat -> pyval -> bool.
  Variable object : pyval -> bool.
  Variable attr : string -> pyval -> res pyval.
  Notation convert := (fk_convert conv isa object attr).

  (** With the class there when the key is declared, an instance stands for its key, converted to its type. *)
  Theorem instance_declared : forall d c k t f v x st, d_keys d = Some [k] -> c_type c k = Ok t -> fk_build d (Built c) = Ok f ->
    v <> VNone -> isa (c_n c) v = true -> attr k v = Ok x -> convert d f st v = conv t x.
  Proof.
    intros d c k t f v x st hk ht hb nv hi ha. unfold fk_build, keys_or in hb. rewrite hk in hb. cbn [types_of rbind] in hb. rewrite ht in hb. cbn [rbind] in hb.
    destruct (d_schema d); [|discriminate]. inversion hb; subst f. clear hb. unfold fk_convert, fkey_convert.
    destruct v; try congruence; cbn [get_class f_class instance_of f_keys f_types]; rewrite hi; cbn [attrs_of rbind]; rewrite ha; reflexivity.
  Qed.
  (** Refuted for a key to a schema under construction: the key of an instance must be (the text of) an integer... *)
  Theorem circular_text_refuted : forall d stand c k ks f v s, d_schema d = true -> Keys d ["id"%string] (k :: ks) -> Untyped stand (k :: ks) ->
    fk_build d (Building stand) = Ok f -> v <> VNone -> isa (c_n c) v = true -> (forall k', In k' (k :: ks) -> exists x, attr k' v = Ok x) ->
    attr k v = Ok (VStr s) -> parse_int (chars s) = None -> convert d f (Built c) v = Err ConversionError.
  Proof.
    intros d stand c k ks f v s hs hk hu hb nv hi hall ha hp. unfold fk_build in hb. rewrite hs, (keys_keys _ _ _ hk) in hb. destruct (types_untyped _ _ hu) as (e & et).
    rewrite et in hb. cbn [negb] in hb. inversion hb; subst f. clear hb.
    assert (A : exists xs, attrs_of attr (k :: ks) v = Ok (VStr s :: xs)).
    { cbn [attrs_of]. rewrite ha. cbn [rbind]. assert (B : exists xs, attrs_of attr ks v = Ok xs).
      { clear - hall. induction ks as [|k1 ks IH]; [exists []; reflexivity|]. cbn [attrs_of]. destruct (hall k1 (or_intror (or_introl eq_refl))) as (x & ->). cbn [rbind].
        destruct IH as (xs & ->); [intros k' [i|i]; apply hall; [left|right; right]; assumption|]. exists (x :: xs). reflexivity. }
      destruct B as (xs & ->). exists xs. reflexivity. }
    destruct A as (xs & A). unfold fk_convert, fkey_convert.
    destruct v; try congruence; cbn [get_class f_class instance_of f_keys f_types fresh]; rewrite hi; rewrite A; cbn [rbind conv_keys]; rewrite integer; cbn [integer_conv]; rewrite hp; reflexivity.
  Qed.
  (** ... and of several keys only the first one is kept. *)
  Theorem circular_several_refuted : forall d stand c k k' ks f v x xs, d_schema d = true -> Keys d ["id"%string] (k :: k' :: ks) -> Untyped stand (k :: k' :: ks) ->
    fk_build d (Building stand) = Ok f -> v <> VNone -> isa (c_n c) v = true -> attrs_of attr (k :: k' :: ks) v = Ok (x :: xs) ->
    convert d f (Built c) v = integer_conv x.
  Proof.
    intros d stand c k k' ks f v x xs hs hk hu hb nv hi A. unfold fk_build in hb. rewrite hs, (keys_keys _ _ _ hk) in hb. destruct (types_untyped _ _ hu) as (e & et).
    rewrite et in hb. cbn [negb] in hb. inversion hb; subst f. clear hb. unfold fk_convert, fkey_convert.
    destruct v; try congruence; cbn [get_class f_class instance_of f_keys f_types fresh]; rewrite hi; rewrite A; cbn [rbind conv_keys]; apply integer.
  Qed.
  (** A key left with the class of all objects takes any object, by its attribute [id] or the keys it had. *)
  Theorem any_object_refuted : forall d f st v k t x, Is f FAny [k] [t] -> v <> VNone -> object v = true -> attr k v = Ok x -> convert d f st v = conv t x.
  Proof.
    intros d f st v k t x (hc & hk & ht) nv ho ha. unfold fk_convert, fkey_convert.
    assert (g : get_class d f st = f) by (unfold get_class; rewrite hc; reflexivity).
    destruct v; try congruence; rewrite g, hc, hk, ht; cbn [instance_of]; rewrite ho; cbn [attrs_of]; rewrite ha; reflexivity.
  Qed.
End Convert.

(** Refuted: that a key to a schema under construction ends up with its class. Used once before the class is there, and once more, it is left
    with the class of all objects... *)
Theorem early_use_refuted : forall d stand f, fk_build d (Building stand) = Ok f ->
  forall h1 h2 stand1 h3 stand2, NoUse h1 -> NoUse h2 -> snd (after d (f, Building stand) h1) = Building stand1 ->
    snd (after d (f, Building stand) (h1 ++ Use :: h2)) = Building stand2 ->
    Is (fst (after d (f, Building stand) ((h1 ++ Use :: h2) ++ Use :: h3))) FAny (f_keys f) (f_types f).
Proof.
  intros d stand f hb h1 h2 stand1 h3 stand2 n1 n2 e1 e2. assert (fc : f_class f = Some FStand /\ f_schema f = true).
  { unfold fk_build in hb. destruct (d_schema d); [|discriminate]. cbn [negb] in hb. destruct (types_of _ _); inversion hb; split; reflexivity. }
  destruct fc as (fc & fs). revert e2. rewrite (after_app d _ (h1 ++ Use :: h2)). rewrite (after_app d _ h1). rewrite no_use by exact n1. rewrite e1.
  rewrite after_use. assert (eg : get_class d f (Building stand1) = {| f_schema := true; f_class := None; f_keys := f_keys f; f_types := f_types f |})
    by (unfold get_class; rewrite fc, fs; reflexivity). rewrite eg. clear eg. set (g := {| f_schema := true; f_class := None; f_keys := f_keys f; f_types := f_types f |}).
  rewrite (no_use d g h2 n2). cbn [snd]. intros ->. rewrite after_use. unfold get_class. cbn [f_class f_schema g]. unfold set_schema. cbn [set_class f_keys f_types].
  rewrite (kept _ _ FAny); [repeat split|reflexivity|discriminate].
Qed.
(** ... and used once before the class is there and again after, it gets the class and, unlike any other, its primary keys by default; but for a
    class that is no entity it is left with the class of all objects. *)
Theorem early_use_then : forall d stand f, fk_build d (Building stand) = Ok f ->
  forall h1 h2 stand1 h3 c, NoUse h1 -> NoUse h2 -> snd (after d (f, Building stand) h1) = Building stand1 ->
    snd (after d (f, Building stand) (h1 ++ Use :: h2)) = Built c ->
    let f' := fst (after d (f, Building stand) ((h1 ++ Use :: h2) ++ Use :: h3)) in
    (c_entity c = true -> forall ks ts, Keys d (c_pk c) ks -> Typed (c_type c) ks ts -> Is f' (FCls c) ks ts) /\
    (c_entity c = false -> Is f' FAny (f_keys f) (f_types f)).
Proof.
  intros d stand f hb h1 h2 stand1 h3 c n1 n2 e1 e2. assert (fc : f_class f = Some FStand /\ f_schema f = true).
  { unfold fk_build in hb. destruct (d_schema d); [|discriminate]. cbn [negb] in hb. destruct (types_of _ _); inversion hb; split; reflexivity. }
  destruct fc as (fc & fs). revert e2. rewrite (after_app d _ (h1 ++ Use :: h2)). rewrite (after_app d _ h1). rewrite no_use by exact n1. rewrite e1.
  rewrite after_use. assert (eg : get_class d f (Building stand1) = {| f_schema := true; f_class := None; f_keys := f_keys f; f_types := f_types f |})
    by (unfold get_class; rewrite fc, fs; reflexivity). rewrite eg. clear eg. set (g := {| f_schema := true; f_class := None; f_keys := f_keys f; f_types := f_types f |}).
  rewrite (no_use d g h2 n2). cbn [snd]. intros ->. rewrite after_use. unfold get_class. cbn [f_class f_schema g]. unfold set_schema. cbn [set_class f_keys f_types f_schema].
  split; intros he; rewrite he.
  - intros ks ts hk ht. rewrite (kept _ _ (FCls c)); [|reflexivity|discriminate]. rewrite (keys_keys _ _ _ hk), (proj2 (types_typed _ _ _) ht). repeat split.
  - rewrite (kept _ _ FAny); [repeat split|reflexivity|discriminate].
Qed.

(** A key made by calling ForeignKey refers to the class of the schema when it is there and is an entity, with the primary keys by default; ... *)
Theorem made_key : forall d c ks ts, d_schema d = true -> c_entity c = true -> Keys d (c_pk c) ks -> Typed (c_type c) ks ts ->
  Stays d (fk_init d (Built c)) (FCls c) ks ts.
Proof.
  intros d c ks ts hs he hk ht st h. unfold fk_init, set_schema, set_class. rewrite hs, he, (keys_keys _ _ _ hk), (proj2 (types_typed _ _ _) ht).
  rewrite (kept _ _ (FCls c)); [repeat split|reflexivity|discriminate].
Qed.
(** ... otherwise, whatever becomes of the schema, it takes any object and one integer, its [id]. *)
Theorem made_key_refuted : forall d st0, d_schema d = true -> (forall c, st0 = Built c -> c_entity c = false) ->
  Stays d (fk_init d st0) FAny ["id"%string] [KInteger].
Proof.
  intros d st0 hs he st h. unfold fk_init, set_schema, set_class. rewrite hs.
  destruct st0 as [e|stand|c]; [| |rewrite (he c eq_refl)]; (rewrite (kept _ _ FAny); [repeat split|reflexivity|discriminate]).
Qed.

(** A key made without a foreign schema refers to nothing, whatever happens: no value is taken for an instance, and it takes one integer. *)
Theorem key_without_schema : forall d st h, d_schema d = false ->
  let f := fst (after d (fk_init d st, st) h) in
  (f_class f = None /\ f_keys f = ["id"%string] /\ f_types f = [KInteger]) /\
  forall conv isa object attr st' v, fk_convert conv isa object attr d f st' v = fkey_convert conv (fun _ => None) [KInteger] v.
Proof.
  intros d st h hs f. assert (e : f = fresh).
  { unfold f, fk_init. rewrite hs. clear f. revert st. induction h as [|[st'|] h IH]; intros st; [reflexivity | apply IH | apply IH]. }
  rewrite e. split; [repeat split|]. intros conv isa object attr st' v. unfold fk_convert. destruct v; reflexivity.
Qed.
Print Assumptions key_without_schema.

Print Assumptions declared_key.
Print Assumptions primary_keys_refuted.
Print Assumptions unknown_key.
Print Assumptions unknown_schema.
Print Assumptions circular_key.
Print Assumptions instance_declared.
Print Assumptions circular_text_refuted.
Print Assumptions circular_several_refuted.
Print Assumptions any_object_refuted.
Print Assumptions early_use_refuted.
Print Assumptions early_use_then.
Print Assumptions made_key.
Print Assumptions made_key_refuted.

(** * Examples *)
Local Open Scope string_scope. Local Open Scope list_scope.
(** persons, known by their name, and the reference of a person to another *)
Definition ex_person : cls := {| c_n := 1; c_entity := true; c_pk := ["name"]; c_type := fun k => if String.eqb k "name" then Ok (KItem 0) else Err KeyError |}.
Definition ex_stand : string -> res ktype := fun _ => Err AttributeError.
Definition ex_decl (ks : option (list string)) : decl := {| d_schema := true; d_keys := ks |}.
Definition ex_conv (t : ktype) (v : pyval) : res pyval := match t with KInteger => integer_conv v | KItem _ => string_conv v end.
Definition ex_attr (k : string) (v : pyval) : res pyval := if String.eqb k "name" then Ok (VStr "bob") else Err AttributeError.
Definition ex_convert := fk_convert ex_conv (fun n _ => Nat.eqb n 1) (fun _ => true) ex_attr.
Definition ex_key (st : status) : fkey := match fk_build (ex_decl (Some ["name"])) st with Ok f => f | Err _ => fresh end.
Example declared_key_ex : fk_build (ex_decl (Some ["name"])) (Built ex_person) = Ok (ex_key (Built ex_person)) /\
  Is (ex_key (Built ex_person)) (FCls ex_person) ["name"] [KItem 0] /\ fk_build (ex_decl None) (Built ex_person) = Err AssertionError.
Proof. repeat split. Qed.
Example circular_key_ex : Untyped ex_stand ["name"] /\
  Is (fst (after (ex_decl (Some ["name"])) (ex_key (Building ex_stand), Building ex_stand) [Becomes (Built ex_person); Use; Use])) (FCls ex_person) ["name"] [KInteger].
Proof. split; [exists "name", AttributeError; split; [left|]; reflexivity|repeat split]. Qed.
Example circular_text_refuted_ex : ex_convert (ex_decl (Some ["name"])) (ex_key (Built ex_person)) (Built ex_person) (VObj 0) = Ok (VStr "bob") /\
  ex_convert (ex_decl (Some ["name"])) (ex_key (Building ex_stand)) (Built ex_person) (VObj 0) = Err ConversionError.
Proof. split; reflexivity. Qed.
Example circular_several_refuted_ex : let d := ex_decl (Some ["a"; "b"]) in let attr := fun k (_ : pyval) => if String.eqb k "a" then Ok (VInt 1) else Ok (VInt 2) in
  exists f, fk_build d (Building ex_stand) = Ok f /\ fk_convert ex_conv (fun _ _ => true) (fun _ => true) attr d f (Built ex_person) (VObj 0) = Ok (VInt 1).
Proof. eexists. split; reflexivity. Qed.
Example early_use_ex : let d := ex_decl (Some ["name"]) in let f := ex_key (Building ex_stand) in
  Is (fst (after d (f, Building ex_stand) [Use; Use; Becomes (Built ex_person); Use])) FAny ["name"] [KInteger] /\
  Is (fst (after d (f, Building ex_stand) [Use; Becomes (Built ex_person); Use])) (FCls ex_person) ["name"] [KItem 0].
Proof. repeat split. Qed.
Example made_key_ex : Is (fk_init (ex_decl None) (Built ex_person)) (FCls ex_person) ["name"] [KItem 0] /\
  Is (fst (after (ex_decl None) (fk_init (ex_decl None) (Unknown KeyError), Unknown KeyError) [Becomes (Built ex_person); Use])) FAny ["id"] [KInteger].
Proof. repeat split. Qed.
Example any_object_refuted_ex : fk_convert ex_conv (fun _ _ => false) (fun _ => true) (fun _ _ => Ok (VInt 7)) (ex_decl None) (fk_init (ex_decl None) (Unknown KeyError)) (Unknown KeyError) (VObj 3) = Ok (VInt 7).
Proof. reflexivity. Qed.
