(** C76: what a name of an object refers to, and earlier lookups. *)
From Verif Require Import Nc_Model Nc_Spec Nc_Proofs.
Local Open Scope string_scope. Local Open Scope list_scope.

(** The first time anything is looked up in a family of classes, names mean what the class declares. *)
Theorem first_lookup : forall w h c name raw, Refers (cl_names w c) name raw -> (forall c' k, In (c', k) h -> ~ Related w c c') ->
  exists trans, after w h c name = Some (raw, trans).
Proof.
  intros w h c name raw R ind. destruct (refers_raw _ _ _ R) as (trans & e). exists trans. unfold after.
  destruct (fst (look_up w (run w [] h) c name)) as [r|] eqn:ea.
  - destruct (origin w h c name r ea) as [q|(c' & i & rel & q)]; [congruence|]. destruct (ind c' name i rel).
  - apply nowhere in ea. congruence.
Qed.
Print Assumptions first_lookup.

(** After any history, the answer is that of the class, or of a related class the same name has been looked up on before. *)
Theorem lookup_origin : forall w h c name,
  match after w h c name with
  | Some r => Alone w c name = Some r \/ exists c', In (c', name) h /\ Related w c c' /\ Alone w c' name = Some r
  | None => Alone w c name = None
  end.
Proof.
  intros w h c name. unfold after, Alone. destruct (fst (look_up w (run w [] h) c name)) as [r|] eqn:e; [apply (origin w h c name r e)|apply (nowhere w h c name e)].
Qed.
Print Assumptions lookup_origin.

(** So a name means what the class declares, whatever the history, when the related classes that know the name agree on it; and items
    are then written and read under that name. *)
Theorem lookup_agreed : forall w h c, (forall c' name r, In (c', name) h -> Related w c c' -> Alone w c' name = Some r -> Alone w c name = Some r) ->
  (forall name, after w h c name = Alone w c name) /\
  (forall key v d, fst (item_set w (run w [] h) c key v d) = alias_set (cl_names w c) key v d) /\
  (forall key d, fst (item_get w (run w [] h) c key d) = alias_get (cl_names w c) key d).
Proof.
  intros w h c H. assert (K : forall name, after w h c name = Alone w c name).
  { intros name. pose proof (lookup_origin w h c name) as O. destruct (after w h c name) as [r|]; [|congruence].
    destruct O as [q|(c' & i & rel & q)]; [congruence|]. symmetry. apply (H c' name r i rel q). }
  split; [exact K|]. unfold after, Alone in K. unfold item_set, item_get, alias_set, alias_get. split.
  - intros key v d. specialize (K key). destruct (look_up w (run w [] h) c key) as [rt st]. cbn in *. rewrite K. reflexivity.
  - intros key d. specialize (K (get_key (cl_names w c) key)). destruct (look_up w (run w [] h) c (get_key (cl_names w c) key)) as [rt st]. cbn in *. rewrite K. reflexivity.
Qed.
Print Assumptions lookup_agreed.

(** With single inheritance, a class that has answered gives the same answer for ever. *)
Theorem lookup_stable : forall w h h' c name r, SingleInheritance w -> after w h c name = Some r -> after w (h ++ (c, name) :: h') c name = Some r.
Proof.
  intros w h h' c name r S e. unfold after in *. rewrite run_app. cbn [run].
  destruct (answered w (run w [] h) c name r e) as (o & m & h1 & h2 & h3). apply (stable w S h' _ c name o m r h1 h2 h3).
Qed.
Print Assumptions lookup_stable.

(** The lookup of a name on a base class decides what it means for the derived class: an alias the derived class declares is not one,
    and the item goes under the alias' own name, or is refused. *)
Theorem base_decides_refuted : forall w b c k p v d, cl_bases w c = [b] -> cl_bases w b = [] -> b <> c ->
  nm_additional (cl_names w b) = true -> Refers (cl_names w b) k k -> ~ In k (nm_props (cl_names w c)) -> dget k (nm_neg (cl_names w c)) = None ->
  Refers (cl_names w c) k p -> In p (nm_props (cl_names w c)) ->
  fst (item_set w (run w [] []) c k v d) = Ok (dset p v d) /\
  fst (item_set w (run w [] [(b, k)]) c k v d) = if nm_additional (cl_names w c) then Ok (dset k v d) else Err KeyError.
Proof.
  intros w b c k p v d bc bb ne ab Rb nk nn Rc ip. destruct (refers_raw _ _ _ Rb) as (tb & eb). destruct (refers_raw _ _ _ Rc) as (tc & ec).
  unfold item_set. split.
  - cbn [run]. unfold look_up, owner, mro. rewrite bc. cbn -[raw_trans alias_set_by eq_dec]. destruct (eq_dec c c); [|congruence]. cbn -[raw_trans alias_set_by eq_dec]. rewrite ec.
    cbn [fst]. unfold alias_set_by. rewrite (proj2 (mem_In _ _ _) ip). unfold dmem. rewrite nn. reflexivity.
  - assert (r1 : run w [] [(b, k)] = [(b, [(k, (k, tb))])]).
    { cbn [run]. unfold look_up, owner, mro. rewrite bb. cbn -[raw_trans eq_dec]. destruct (eq_dec b b); [|congruence]. cbn -[raw_trans eq_dec]. rewrite eb. cbn -[eq_dec]. destruct (eq_dec b b); [reflexivity|congruence]. }
    rewrite r1. assert (o1 : owner w [(b, [(k, (k, tb))])] c = Some b).
    { unfold owner, mro. rewrite bc. cbn -[eq_dec]. unfold dmem. cbn -[eq_dec]. destruct (eq_dec c b) as [->|]; [congruence|]. cbn -[eq_dec]. destruct (eq_dec b b); [reflexivity|congruence]. }
    unfold look_up. rewrite o1. cbn -[eq_dec alias_set_by]. destruct (eq_dec b b); [|congruence]. cbn -[eq_dec alias_set_by]. destruct (eq_dec k k); [|congruence].
    cbn [fst]. unfold alias_set_by. rewrite (proj2 (mem_not_In _ _ _) nk). unfold dmem. rewrite nn. destruct (nm_additional (cl_names w c)); reflexivity.
Qed.
Print Assumptions base_decides_refuted.

(** a base class of any items, and a derived class that makes "label" an alias of its property "name" *)
Definition n_base : names := {| nm_props := ["name"]; nm_trans := []; nm_alias := []; nm_neg := []; nm_additional := true; nm_clean := fun s => s |}%string.
Definition n_derived : names := {| nm_props := ["name"]; nm_trans := []; nm_alias := [("label", "name")]; nm_neg := []; nm_additional := true; nm_clean := fun s => s |}%string.
Definition n_closed : names := {| nm_props := ["name"]; nm_trans := []; nm_alias := []; nm_neg := []; nm_additional := false; nm_clean := fun s => s |}%string.
Definition two (b d : names) : classes := {| cl_names := fun c => match c with 0 => b | _ => d end; cl_bases := fun c => match c with 0 => [] | _ => [0] end |}.
Example base_decides_example :
  fst (item_set (two n_base n_derived) [] 1 "label" (VInt 5) [("name", VInt 1)]) = Ok [("name", VInt 5)] /\
  fst (item_set (two n_base n_derived) (run (two n_base n_derived) [] [(0, "label")]) 1 "label" (VInt 5) [("name", VInt 1)]) = Ok [("name", VInt 1); ("label", VInt 5)].
Proof. split; reflexivity. Qed.
Example base_decides_hypotheses : Refers n_base "label" "label" /\ Refers n_derived "label" "name" /\ In "name"%string (nm_props n_derived) /\
  SingleInheritance (two n_base n_derived).
Proof.
  split; [apply ref_additional; cbn; try reflexivity; [intros [|[]]; discriminate|intros ? ? []]|]. split; [apply ref_alias; cbn; try reflexivity; [intros [|[]]; discriminate|intros ? ? []]|].
  split; [left; reflexivity|]. intros [|c] pre x o post; cbn; [destruct pre; discriminate|]. destruct pre as [|? [|]]; cbn; try discriminate. intros [= <- <-] [].
Qed.
(** And the other way round: once a dictionary of the base class exists, the aliases of the derived class become those of the base
    class, even if it allows no such item. *)
Theorem derived_decides_refuted :
  fst (item_set (two n_closed n_derived) (run (two n_closed n_derived) [] [(0, "name")]) 0 "label" (VInt 5) [("name", VInt 1)]) = Err KeyError /\
  fst (item_set (two n_closed n_derived) (run (two n_closed n_derived) [] [(0, "name"); (1, "label")]) 0 "label" (VInt 5) [("name", VInt 1)]) = Ok [("name", VInt 5)].
Proof. split; reflexivity. Qed.
Print Assumptions derived_decides_refuted.
(** With two base classes even an answer given before changes: class 2 inherits from 0 and 1; it has used the dictionary of 1, until 0
    has one. *)
Definition diamond : classes := {| cl_names := fun c => match c with 2 => n_derived | _ => n_base end; cl_bases := fun c => match c with 2 => [0; 1] | _ => [] end |}.
Theorem answer_changes_refuted :
  after diamond [(1, "name")] 2 "label" = Some ("name", "label")%string /\
  after diamond [(1, "name"); (2, "label"); (0, "label")] 2 "label" = Some ("label", "label")%string.
Proof. split; reflexivity. Qed.
Print Assumptions answer_changes_refuted.
Example stable_example : after (two n_base n_derived) [] 1 "label" = Some ("name", "label")%string /\
  after (two n_base n_derived) [(1, "label"); (0, "label")] 1 "label" = Some ("name", "label")%string.
Proof. split; reflexivity. Qed.
