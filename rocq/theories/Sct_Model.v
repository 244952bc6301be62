(** Scalar types made of schemas: ngoschema/protocols/type_protocol.py: TypeProtocol.build 36-88, extend_type 148-152, default 101-103;
    managers/type_builder.py: TypeBuilder.build 65-98, load 100-106, get_type 62-63; protocols/validator.py: Validator.__init__ 25-35,
    _evaluate 74-85; types/type.py: Enum.__init__ 88-92, Type.__call__ 29-32; protocols/collection_protocol.py: _items_evaluate 118-136.
    The linearisation of classes is that of Order_Model (C3, which is Python's).
    Simplifications: schemas of scalar types only (no object, array or boolean schema, no 'foreignKey'); references are absolute and lead
    to other schemas without cycle (TB_Model has proxies, and what a failure leaves behind); 'enum' holds a list; class numbers stand for
    classes. *)
From Verif Require Export PyVal Order_Model.
From Verif Require Import Build_Model.
Local Open Scope string_scope.
Local Open Scope list_scope.

(** a schema: keywords and their values *)
Definition sch := dict string pyval.
(** how [__init__] takes one positional argument: not at all, or under another meaning ('precision' of Number, numerics.py:38) *)
Inductive initk := INone | ITakes.
(** a class: its linearisation (itself first), and its own attributes [_schema], [_default], [__init__], if any *)
Record kls := { k_lin : list nat; k_schema : option sch; k_default : option pyval; k_init : option initk }.
(** what is registered for an id: a class, or an instance of one (type_builder.py:94) *)
Inductive tobj := TClass (c : nat) | TInst (c : nat).
Definition class_of (t : tobj) : nat := match t with TClass c | TInst c => c end.
(** the classes, in the order they were made; _type_registry; _registry *)
Record tw := { t_classes : list kls; t_types : dict string nat; t_reg : dict string tobj }.

Definition lin (cs : list kls) (n : nat) : list nat := match nth_error cs n with Some k => k_lin k | None => [] end.
(** attribute of a class: that of the first class of the linearisation which has it *)
Fixpoint first_attr {A} (f : kls -> option A) (cs : list kls) (l : list nat) : option A :=
  match l with
  | [] => None
  | n :: l' => match nth_error cs n with
               | Some k => match f k with Some a => Some a | None => first_attr f cs l' end
               | None => first_attr f cs l'
               end
  end.
Definition attr {A} (f : kls -> option A) (w : tw) (c : nat) : option A := first_attr f (t_classes w) (lin (t_classes w) c).
(** [_schema]; validator.py:22 *)
Definition schema_of (w : tw) (c : nat) : sch := match attr k_schema w c with Some s => s | None => [] end.
(** the value a type has for a keyword; an instance made without options has the schema of its class (validator.py:30-31) *)
Definition keyword (w : tw) (t : tobj) (k : string) : option pyval := dget k (schema_of w (class_of t)).
(** [_default] of the class, read by [default] (type_protocol.py:101-103); [None] is Python's None *)
Definition class_default (w : tw) (t : tobj) : option pyval := attr k_default w (class_of t).

Definition enum_of (s : sch) : list pyval := match dget "enum" s with Some (VList l) => l | _ => [] end.
Definition add_class (k : kls) (w : tw) : tw := {| t_classes := t_classes w ++ [k]; t_types := t_types w; t_reg := t_reg w |}.
Definition register (id : string) (t : tobj) (w : tw) : tw := {| t_classes := t_classes w; t_types := t_types w; t_reg := dset id t (t_reg w) |}.

Section Sct.
  Variable docs : dict string sch.                      (* resolve_uri *)
  Variable type_ enum_ : nat.                           (* the classes Type and Enum *)
  Variable accepts : sch -> bool.                       (* check_schema, type_builder.py:108-111 *)
  Variable underscore : string -> string.               (* inflection.underscore *)

  (** type_protocol.py:67-68, get_type: KeyError, or TypeError when the value cannot be a key *)
  Definition named_type (s : sch) (w : tw) : res (list nat) :=
    match dget "type" s with
    | None => Ok []
    | Some (VStr t) => match dget t (t_types w) with Some c => Ok [c] | None => Err KeyError end
    | Some (VList _) | Some (VDict _) => Err TypeError
    | Some _ => Err KeyError
    end.
  (** 69-74: the bases that are not below those given, Type when there are none *)
  Definition extra_bases (cs : list kls) (bases extra : list nat) : list nat :=
    match bases, filter (fun b => negb (existsb (fun a => mem a (lin cs b)) bases)) extra with
    | [], [] => [type_]
    | _, l => l
    end.
  (** 36-88. [ext] are the types of 'extends': an instance among them makes issubclass (70) or type() (88) raise TypeError.
      [type()] raises TypeError when there is no linearisation, for a base given twice too *)
  Definition scalar_class (s : sch) (bases : list nat) (ext : list tobj) (w : tw) : res nat * tw :=
    match named_type s w with
    | Err e => (Err e, w)
    | Ok tys =>
        if existsb (fun t => match t with TInst _ => true | TClass _ => false end) ext then (Err TypeError, w)
        else
          let cs := t_classes w in
          let all := bases ++ extra_bases cs bases (map class_of ext ++ (if dmem "enum" s then [enum_] else []) ++ tys) in
          let merged := chain s (map (schema_of w) all) in                                          (* 75 *)
          match mro (lin cs) all with
          | Err e => (Err e, w)
          | Ok l =>
              (Ok (length cs),
               add_class {| k_lin := length cs :: l; k_schema := Some merged;
                            k_default := match dget "default" merged with
                                         | Some v => Some v                                        (* 78-79 *)
                                         | None => match enum_of s with v :: _ => Some v | [] => None end  (* 80-81 *)
                                         end;
                            k_init := None |} w)
          end
    end.

  Definition extends_of (s : sch) : list string :=
    match dget "extends" s with Some (VList l) => flat_map (fun v => match v with VStr u => [u] | _ => [] end) l | _ => [] end.
  Fixpoint load_all (ld : string -> tw -> res tobj * tw) (us : list string) (w : tw) : res (list tobj) * tw :=
    match us with
    | [] => (Ok [], w)
    | u :: us' => match ld u w with
                  | (Err e, w1) => (Err e, w1)
                  | (Ok t, w1) => match load_all ld us' w1 with
                                  | (Err e, w2) => (Err e, w2)
                                  | (Ok ts, w2) => (Ok (t :: ts), w2)
                                  end
                  end
    end.

  (** type_builder.py:65-98; extend_type takes the keywords as arguments, two of which it has already *)
  Definition build_with (ld : string -> tw -> res tobj * tw) (id : string) (s : sch) (w : tw) : res tobj * tw :=
    match dget "$ref" s with
    | Some (VStr r) =>
        match ld r w with
        | (Err e, w1) => (Err e, w1)
        | (Ok t, w1) =>
            match ddel "$ref" s with
            | [] => (Ok t, register id t w1)
            | rest =>
                if dmem "id" rest || dmem "cls" rest then (Err TypeError, w1)
                else match load_all ld (extends_of rest) w1 with
                     | (Err e, w2) => (Err e, w2)
                     | (Ok ext, w2) =>
                         match scalar_class rest [class_of t] ext w2 with
                         | (Err e, w3) => (Err e, w3)
                         | (Ok c, w3) => (Ok (TClass c), register id (TClass c) (register (underscore id) (TClass c) w3))
                         end
                     end
            end
        end
    | Some _ => (Err TypeError, w)
    | None =>
        match load_all ld (extends_of s) w with
        | (Err e, w1) => (Err e, w1)
        | (Ok ext, w1) =>
            match scalar_class s [] ext w1 with
            | (Err e, w2) => (Err e, w2)
            | (Ok c, w2) => if accepts (schema_of w2 c) then (Ok (TInst c), register id (TInst c) w2)        (* 94 *)
                            else (Err ValidationError, w2)
            end
        end
    end.
  (** 100-106; one unit of fuel per reference followed *)
  Fixpoint load (n : nat) (id : string) (w : tw) : res tobj * tw :=
    match n with
    | 0 => (Err OutOfFuel, w)
    | S n' =>
        match dget id (t_reg w) with
        | Some t => (Ok t, w)
        | None => match dget id docs with
                  | None => (Err InvalidValue, w)
                  | Some s => build_with (load n') id s w
                  end
        end
    end.

  (** [_default] of an instance: validator.py:34, then type.py:91-92 when the class starts with Enum *)
  Definition inst_default (w : tw) (c : nat) : option pyval :=
    let d := match dget "default" (schema_of w c) with Some v => Some v | None => class_default w (TClass c) end in
    if mem enum_ (firstn 2 (lin (t_classes w) c)) then
      match enum_of (schema_of w c) with
      | v :: _ => match d with Some x => if truthy x then d else Some v | None => Some v end
      | [] => d
      end
    else d.

  (** what a property holds: a value, or an instance of a type *)
  Inductive held := HVal (v : pyval) | HType (c : nat).
  (** collection_protocol.py:127-129: [t(v, serialize=False)] for a primitive type. An instance evaluates the value, [ev]; a class makes an
      instance of itself, with [v] as the argument: [mk] tells whether __init__ takes it *)
  Definition read (ev : nat -> pyval -> res pyval) (mk : pyval -> res unit) (w : tw) (t : tobj) (v : pyval) : res held :=
    match t with
    | TInst c => do x <- ev c v; Ok (HVal x)
    | TClass c => match attr k_init w c with
                  | Some ITakes => do _ <- mk v; Ok (HType c)
                  | _ => Err TypeError
                  end
    end.
End Sct.
