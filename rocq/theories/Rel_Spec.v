(** What relationships between classes should be. *)
From Verif Require Import Base Uri_Model Rel_Model.
Local Open Scope list_scope.

(** the relationships a class schema asks for, by name: the declared ones, then what the foreign keys add *)
Inductive Asked (t : tsch) : name -> rsch -> Prop :=
| A_declared k r : In (k, r) (s_rels t) -> Asked t k r
| A_back p f bps k r : In (p, (f, bps)) (s_fks t) -> In (k, r) bps -> Asked t k r
| A_pointer p f : In (p, (f, [])) (s_fks t) ->
    Asked t (p ++ list_ascii_of_string "_ptr") {| r_foreign := f; r_card := None; r_keys := [p]; r_back := [] |}.

(** the classes a class schema leads to *)
Inductive LeadsTo (id : name) (t : tsch) : name -> Prop :=
| L_rel k r f : Asked t k r -> r_foreign r = Some f ->
    LeadsTo id t (scope f (id ++ list_ascii_of_string "/relationships/" ++ k))
| L_key p f bps : In (p, (Some f, bps)) (s_fks t) ->
    LeadsTo id t (scope f (id ++ list_ascii_of_string "/properties/" ++ p)).

Inductive Reaches (docs : dict name tsch) : name -> name -> Prop :=
| R_refl u : Reaches docs u u
| R_step u t v w : dget u docs = Some t -> LeadsTo u t v -> Reaches docs v w -> Reaches docs u w.

(** the documents hang together: every reference names a class of the documents *)
Definition Closed (docs : dict name tsch) : Prop :=
  forall u t, dget u docs = Some t ->
    (forall k r, Asked t k r -> r_foreign r <> None) /\ (forall p f bps, In (p, (f, bps)) (s_fks t) -> f <> None) /\
    (forall v, LeadsTo u t v -> exists t', dget v docs = Some t').
(** no relationship asks for a relationship back *)
Definition OneWay (docs : dict name tsch) : Prop :=
  forall u t k r, dget u docs = Some t -> Asked t k r -> r_back r = [].
(** the identifier of no class contains '/relationships' *)
Definition PlainIds (docs : dict name tsch) : Prop :=
  forall u t, dget u docs = Some t -> ~ exists a b, u = a ++ list_ascii_of_string "/relationships" ++ b.
(** a class schema does not ask for two different relationships of the same name *)
Definition NamesOnce (docs : dict name tsch) : Prop :=
  forall u t k r r', dget u docs = Some t -> Asked t k r -> Asked t k r' -> r = r'.

(** the class [c] is the relationship [r] of the class [u], named [k] *)
Definition Describes (docs : dict name tsch) (u k : name) (r : rsch) (c : rcls) : Prop :=
  rc_id c = u ++ list_ascii_of_string "/relationships/" ++ k /\
  r_foreign r <> None /\
  (forall f, r_foreign r = Some f -> rc_schema c = scope f (rc_id c)) /\
  rc_card c = match r_card r with Some x => x | None => list_ascii_of_string "OneToOne" end /\
  (r_keys r <> [] -> rc_keys c = r_keys r) /\
  match rc_class c with
  | Ready v _ => v = rc_schema c /\ exists t, dget v docs = Some t /\ (r_keys r = [] -> rc_keys c = s_pk t)
  | Under v => v = rc_schema c /\ (r_keys r = [] -> rc_keys c = [])
  end.
