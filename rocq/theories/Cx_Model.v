(** How containers get their session: protocols/context.py, the context part of collection_protocol.py:37-49,
    object_protocol.py:236-237 and array_protocol.py:75-84, and the session an Entity is looked up in
    (models/instances.py:60-76). The maps of a context are the subject of Tree_Model (C54). *)
From Verif Require Export Base.

(** What is kept: the attribute [_session] of every context made so far, context 0 being the shared DEFAULT_CONTEXT
    (context.py:18), and the context of every object or array made so far (attribute [_context]). *)
Record world := { w_ctx : list (option nat); w_obj : list nat }.
Definition start : world := {| w_ctx := [None]; w_obj := [] |}.
Definition ctx_session (w : world) (c : nat) : option nat := nth c (w_ctx w) None.
(** context.py:43-45 [session] *)
Definition session (w : world) (o : nat) : option nat := match nth_error (w_obj w) o with Some c => ctx_session w c | None => None end.

Section Sessions.
  (** truth value of a session: it is an object of the library, false when it holds no data (object_protocol.py:253-254) *)
  Variable live : nat -> bool.
  (** [session or other] *)
  Definition or_session (s other : option nat) : option nat := match s with Some n => if live n then Some n else other | None => other end.
  Fixpoint upd {A} (l : list A) (i : nat) (x : A) : list A :=
    match l, i with [], _ => [] | _ :: l', 0 => x :: l' | y :: l', S i' => y :: upd l' i' x end.
  (** context.py:39-41 set_context for a container whose context is [c] *)
  Definition put_session (c : nat) (s : option nat) (cs : list (option nat)) : list (option nat) := upd cs c (or_session s (nth c cs None)).
  (** context.py:33-37 [context or self._context]. Simplification: the class attribute is the default context, and no
      context is empty, as all inherit the entries of the default one *)
  Definition parent_ctx (c : option nat) : nat := match c with Some n => n | None => 0 end.
  (** collection_protocol.py:48-49 for an object: a new context with the session of the one it is made from, then
      [set_context] *)
  Definition new_object (c s : option nat) (w : world) : world :=
    let n := length (w_ctx w) in
    {| w_ctx := put_session n s (w_ctx w ++ [ctx_session w (parent_ctx c)]); w_obj := w_obj w ++ [n] |}.
  (** ... for an array: [create_child()] without arguments returns the context itself (utils.py:138-139) *)
  Definition new_array (c s : option nat) (w : world) : world :=
    {| w_ctx := put_session (parent_ctx c) s (w_ctx w); w_obj := w_obj w ++ [parent_ctx c] |}.
  (** array_protocol.py:82-83: a container inserted in a lazy array takes the context of the array *)
  Definition adopt (arr o : nat) (w : world) : world :=
    match nth_error (w_obj w) arr with Some c => {| w_ctx := w_ctx w; w_obj := upd (w_obj w) o c |} | None => w end.

  Inductive op := NewObject (c s : option nat) | NewArray (c s : option nat) | Adopt (arr o : nat).
  Definition step (w : world) (p : op) : world :=
    match p with NewObject c s => new_object c s w | NewArray c s => new_array c s w | Adopt a o => adopt a o w end.
  Definition run (w : world) (l : list op) : world := fold_left step l w.
  (** objects made one inside the other, each in the context of the one before; [givens] are the sessions given,
      outermost first *)
  Fixpoint nest (c : option nat) (givens : list (option nat)) (w : world) : world :=
    match givens with [] => w | s :: l => nest (Some (length (w_ctx w))) l (new_object c s w) end.
  (** instances.py:60-66, 70-76: the session in which an Entity given by its key is looked up; there is no attribute
      [_session] *)
  Definition lookup_session (c : option nat) (w : world) : res nat :=
    match c with
    | Some n => match ctx_session w n with Some s => if live s then Ok s else Err AttributeError | None => Err AttributeError end
    | None => Err AttributeError
    end.
End Sessions.
