(** The elements of a document at a given depth, as [parse] reports them. *)
From Verif Require Import Base Xml_Model Xml_Spec Xs_Model.
Local Open Scope list_scope.

(** an element of the way from the root: its name and its attributes, None when it has none *)
Definition way (name : str) (attrs : dict str str) : step_of := (name, match attrs with [] => None | _ => Some attrs end).

Section Items.
  Variable force : str -> bool.
  (** what is given of an element: its children by name, as [parse] gives them; or its text, as it stands, after the text [before]; or None *)
  Definition content (before : str) (x : xml) : xval :=
    match x with
    | Xml _ first [] => match before ++ first with [] => XNone | t => XStr t end
    | Xml _ _ kids => XDict (grouped force (map (fun k => (fst (fst k), value_of force (snd (fst k)))) kids))
    end.
  (** the calls for the elements [d] levels below [x], in order of the document: the text before an element is the one of its parent
      just before it, preceded for a first child by the text before the parent *)
  Fixpoint reported (d : nat) (path : list step_of) (before : str) (name : str) (x : xml) : list call :=
    match x with
    | Xml attrs first kids =>
        match d with
        | 0 => [(path ++ [way name attrs], content before x)]
        | S d' =>
            (fix each (before : str) (kids : list (str * xml * str)) : list call :=
               match kids with [] => [] | (n, y, after) :: kids' => reported d' (path ++ [way name attrs]) before n y ++ each after kids' end) (before ++ first) kids
        end
    end.
  (** the elements [d] levels below, with the names and attributes from the root to them *)
  Fixpoint items (d : nat) (path : list step_of) (name : str) (x : xml) : list (list step_of * xml) :=
    match x with
    | Xml attrs first kids =>
        match d with
        | 0 => [(path ++ [way name attrs], x)]
        | S d' => flat_map (fun k => items d' (path ++ [way name attrs]) (fst (fst k)) (snd (fst k))) kids
        end
    end.
  (** no text in the elements above these *)
  Inductive NoTextAbove : nat -> xml -> Prop :=
  | nta_here x : NoTextAbove 0 x
  | nta_below d attrs kids : (forall k, In k kids -> snd k = [] /\ NoTextAbove d (snd (fst k))) -> NoTextAbove (S d) (Xml attrs [] kids).
End Items.

(** [calls] is the beginning of [all] up to the first call that is refused *)
Definition UpToRefusal (callback : list call -> bool) (all calls : list call) : Prop :=
  callback calls = false /\ calls <> [] /\ (exists rest, all = calls ++ rest) /\
  forall p q, calls = p ++ q -> p <> [] -> q <> [] -> callback p = true.
Definition AllAccepted (callback : list call -> bool) (all : list call) : Prop := forall p q, all = p ++ q -> p <> [] -> callback p = true.
