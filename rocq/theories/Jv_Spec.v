(** What a schema says of a value, after the JSON Schema specification (draft 2019-09, validation vocabulary): no errors, no
    paths, no order. A [reading] fixes what the specification and the program see differently. *)
From Verif Require Import Jv_Model Cmp_Spec.
Local Open Scope list_scope.

Record reading := {
  r_array : pyval -> option (list pyval);        (* the items of an array *)
  r_number : pyval -> option Z;                  (* numbers *)
  r_type : list string -> pyval -> Prop;         (* the "type" keyword *)
  r_target : string -> pyval -> Prop;            (* the schema a reference points to *)
  r_alone : bool;                                (* beside a reference nothing is looked at *)
  r_defs : bool                                  (* definitions are properties *)
}.

(** equal data; booleans are no numbers *)
Definition SameData (x y : pyval) : Prop := PyEq x y /\ ((exists b, x = VBool b) <-> (exists b, y = VBool b)).
Definition Distinct (l : list pyval) : Prop :=
  forall i j x y, i < j -> nth_error l i = Some x -> nth_error l j = Some y -> ~ SameData x y.

Definition All {A} (P : A -> Prop) : list A -> Prop := fix go (l : list A) : Prop := match l with [] => True | x :: l' => P x /\ go l' end.
Definition Any {A} (P : A -> Prop) : list A -> Prop := fix go (l : list A) : Prop := match l with [] => False | x :: l' => P x \/ go l' end.
Definition One {A} (P : A -> Prop) : list A -> Prop :=
  fix go (l : list A) : Prop := match l with [] => False | x :: l' => P x /\ All (fun y => ~ P y) l' \/ ~ P x /\ go l' end.
(** [P] of each schema and the item at the same position, as far as both go *)
Definition Beside {A B} (P : A -> B -> Prop) : list A -> list B -> Prop :=
  fix go (l : list A) (m : list B) : Prop := match l, m with x :: l', y :: m' => P x y /\ go l' m' | _, _ => True end.

Section Reading.
  Variable search : string -> string -> bool.
  Variable R : reading.

  (** declared nor matched by a pattern *)
  Definition Extra (sibs : list jkw) (k : string) : Prop :=
    (forall p, In (KProps p) sibs -> ~ In k (map fst p))
    /\ (forall p q, In (KPats p) sibs -> In q (map fst p) -> search q k = false).

  (** the list of "items" of a schema *)
  Definition Positions (sibs : list jkw) (l : list jschema) : Prop :=
    exists a b, sibs = a ++ KItemsAt l :: b /\ forall l', ~ In (KItemsAt l') a.

  Definition OnArray (v : pyval) (P : list pyval -> Prop) : Prop := forall a, r_array R v = Some a -> P a.
  Definition OnNumber (v : pyval) (P : Z -> Prop) : Prop := forall n, r_number R v = Some n -> P n.
  Definition OnText (v : pyval) (P : string -> Prop) : Prop := forall t, v = VStr t -> P t.
  Definition OnObject (v : pyval) (P : list (string * pyval) -> Prop) : Prop := forall d, v = VDict d -> P d.
  Definition Has (d : list (string * pyval)) (k : string) : Prop := In k (map fst d).

  Fixpoint Sat (s : jschema) (v : pyval) {struct s} : Prop :=
    match s with
    | JBool b => b = true
    | JObj l => (r_alone R = true /\ exists u, In (KRef u) l) \/ All (fun k => SatK l k v) l
    end
  with SatK (sibs : list jkw) (k : jkw) (v : pyval) {struct k} : Prop :=
    match k with
    | KType t => r_type R t v
    | KRef u => r_target R u v
    | KNote _ => True
    | KEnum l => exists c, In c l /\ SameData v c
    | KConst c => SameData v c
    | KMin z => OnNumber v (fun n => (z <= n)%Z)
    | KMax z => OnNumber v (fun n => (n <= z)%Z)
    | KExMin z => OnNumber v (fun n => (z < n)%Z)
    | KExMax z => OnNumber v (fun n => (n < z)%Z)
    | KMultiple z => OnNumber v (fun n => exists q, n = (z * q)%Z)
    | KMinLen n => OnText v (fun t => n <= String.length t)
    | KMaxLen n => OnText v (fun t => String.length t <= n)
    | KPattern p => OnText v (fun t => search p t = true)
    | KMinItems n => OnArray v (fun a => n <= length a)
    | KMaxItems n => OnArray v (fun a => length a <= n)
    | KUnique b => OnArray v (fun a => b = true -> Distinct a)
    | KItems s => OnArray v (fun a => forall x, In x a -> Sat s x)
    | KItemsAt l => OnArray v (Beside Sat l)
    | KRest s => OnArray v (fun a => forall l i x, Positions sibs l -> length l <= i -> nth_error a i = Some x -> Sat s x)
    | KContains s => OnArray v (fun a => exists x, In x a /\ Sat s x)
    | KProps l => OnObject v (fun d => All (fun p => forall x, dget (fst p) d = Some x -> Sat (snd p) x) l)
    | KDefs _ l => r_defs R = true -> OnObject v (fun d => All (fun p => forall x, dget (fst p) d = Some x -> Sat (snd p) x) l)
    | KPats l => OnObject v (fun d => All (fun p => forall k x, In (k, x) d -> search (fst p) k = true -> Sat (snd p) x) l)
    | KMore s => OnObject v (fun d => forall k x, In (k, x) d -> Extra sibs k -> Sat s x)
    | KNames s => OnObject v (fun d => forall k, Has d k -> Sat s (VStr k))
    | KRequired l => OnObject v (fun d => forall k, In k l -> Has d k)
    | KMinProps n => OnObject v (fun d => n <= length d)
    | KMaxProps n => OnObject v (fun d => length d <= n)
    | KNeeds l m => OnObject v (fun d => (forall k ns, In (k, ns) l -> Has d k -> forall x, In x ns -> Has d x)
                                      /\ All (fun p => Has d (fst p) -> Sat (snd p) v) m)
    | KAllOf l => All (fun s => Sat s v) l
    | KAnyOf l => Any (fun s => Sat s v) l
    | KOneOf l => One (fun s => Sat s v) l
    | KNot s => ~ Sat s v
    | KIf c t e => (Sat c v -> match t with Some s => Sat s v | None => True end)
                /\ (~ Sat c v -> match e with Some s => Sat s v | None => True end)
    end.
End Reading.

(** the keywords of a schema but those named *)
(** the names of the keywords *)
Inductive Called : jkw -> string -> Prop :=
| nm_type t : Called (KType t) "type" | nm_ref u : Called (KRef u) "$ref" | nm_note n : Called (KNote n) n
| nm_enum l : Called (KEnum l) "enum" | nm_const c : Called (KConst c) "const"
| nm_min z : Called (KMin z) "minimum" | nm_max z : Called (KMax z) "maximum" | nm_exmin z : Called (KExMin z) "exclusiveMinimum"
| nm_exmax z : Called (KExMax z) "exclusiveMaximum" | nm_multiple z : Called (KMultiple z) "multipleOf"
| nm_minlen n : Called (KMinLen n) "minLength" | nm_maxlen n : Called (KMaxLen n) "maxLength" | nm_pattern p : Called (KPattern p) "pattern"
| nm_minitems n : Called (KMinItems n) "minItems" | nm_maxitems n : Called (KMaxItems n) "maxItems" | nm_unique b : Called (KUnique b) "uniqueItems"
| nm_items s : Called (KItems s) "items" | nm_itemsat l : Called (KItemsAt l) "items" | nm_rest s : Called (KRest s) "additionalItems"
| nm_contains s : Called (KContains s) "contains"
| nm_props l : Called (KProps l) "properties" | nm_pats l : Called (KPats l) "patternProperties" | nm_more s : Called (KMore s) "additionalProperties"
| nm_names s : Called (KNames s) "propertyNames" | nm_defs_old l : Called (KDefs true l) "definitions" | nm_defs l : Called (KDefs false l) "$defs"
| nm_required l : Called (KRequired l) "required" | nm_minprops n : Called (KMinProps n) "minProperties" | nm_maxprops n : Called (KMaxProps n) "maxProperties"
| nm_needs l m : Called (KNeeds l m) "dependencies"
| nm_allof l : Called (KAllOf l) "allOf" | nm_anyof l : Called (KAnyOf l) "anyOf" | nm_oneof l : Called (KOneOf l) "oneOf" | nm_not s : Called (KNot s) "not"
| nm_if c t e : Called (KIf c t e) "if".
Definition without (names : list string) (l : list jkw) : list jkw := filter (fun k => negb (mem (kname k) names)) l.

(** the names of the keywords left out of a validation *)
Definition left_out (excludes : list string) (with_type : bool) : list string := if with_type then excludes else excludes ++ ["type"%string].

(** * the two readings *)
(** the names of types in JSON Schema *)
Inductive HasType : string -> pyval -> Prop :=
| ty_null : HasType "null" VNone
| ty_bool b : HasType "boolean" (VBool b)
| ty_int z : HasType "integer" (VInt z)
| ty_num z : HasType "number" (VInt z)
| ty_str s : HasType "string" (VStr s)
| ty_arr l : HasType "array" (VList l)
| ty_obj d : HasType "object" (VDict d).
Definition standard (target : string -> pyval -> Prop) : reading := {|
  r_array := fun v => match v with VList l => Some l | _ => None end;
  r_number := fun v => match v with VInt z => Some z | _ => None end;
  r_type := fun ts v => exists t, In t ts /\ HasType t v;
  r_target := target; r_alone := false; r_defs := false |}.
(** a text is the array of its characters, a boolean is a number, types and references are void *)
Definition characters (s : string) : list pyval := map (fun c => VStr (String c EmptyString)) (list_ascii_of_string s).
Definition program : reading := {|
  r_array := fun v => match v with VList l => Some l | VStr s => Some (characters s) | _ => None end;
  r_number := fun v => match v with VInt z => Some z | VBool b => Some (if b then 1 else 0)%Z | _ => None end;
  r_type := fun _ _ => True;
  r_target := fun _ _ => True; r_alone := true; r_defs := true |}.

(** * where they agree *)
(** [P] of every keyword at any depth *)
Section Every.
  Variable P : jkw -> Prop.
  Definition InOpt (f : jschema -> Prop) (o : option jschema) : Prop := match o with Some s => f s | None => True end.
  Fixpoint Every (s : jschema) : Prop := match s with JBool _ => True | JObj l => All EveryK l end
  with EveryK (k : jkw) : Prop :=
    P k /\
    match k with
    | KItems s | KRest s | KContains s | KMore s | KNames s | KNot s => Every s
    | KItemsAt l | KAllOf l | KAnyOf l | KOneOf l => All Every l
    | KProps l | KPats l | KDefs _ l | KNeeds _ l => All (fun p => Every (snd p)) l
    | KIf c t e => Every c /\ InOpt Every t /\ InOpt Every e
    | _ => True
    end.
End Every.
Definition untyped (k : jkw) : Prop := match k with KType _ | KRef _ | KDefs _ _ => False | _ => True end.
Definition array_free (k : jkw) : Prop :=
  match k with KMinItems _ | KMaxItems _ | KUnique _ | KItems _ | KItemsAt _ | KRest _ | KContains _ => False | _ => True end.
Definition number_free (k : jkw) : Prop :=
  match k with KMin _ | KMax _ | KExMin _ | KExMax _ | KMultiple _ => False | _ => True end.
Definition names_free (k : jkw) : Prop := match k with KNames _ => False | _ => True end.
(** no text, no boolean in a value, keys aside *)
Inductive Within : pyval -> pyval -> Prop :=
| wi_self v : Within v v
| wi_list x l v : In x l -> Within v x -> Within v (VList l)
| wi_tup x l v : In x l -> Within v x -> Within v (VTup l)
| wi_dict k x d v : In (k, x) d -> Within v x -> Within v (VDict d).
Definition TextFree (v : pyval) : Prop := forall s, ~ Within (VStr s) v.
Definition BoolFree (v : pyval) : Prop := forall b, ~ Within (VBool b) v.

(** a position can appear in the path of an error *)
Fixpoint Pathless (s : jschema) : Prop := match s with JBool _ => True | JObj l => All PathlessK l end
with PathlessK (k : jkw) : Prop :=
  match k with
  | KItemsAt _ | KAllOf _ => False
  | KItems s | KRest s | KMore s | KNames s => Pathless s
  | KProps l | KPats l | KDefs _ l | KNeeds _ l => All (fun p => Pathless (snd p)) l
  | KIf _ t e => InOpt Pathless t /\ InOpt Pathless e
  | _ => True
  end.
