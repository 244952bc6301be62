(** Reading XML in pieces: [parse] of ngoschema/utils/xmltodict.py with [item_depth] and [item_callback] (handler 89-154, parse
    199-351). Simplifications: those of Xml_Model; the callback decides on the calls made so far, the last one being the present one;
    it is given the list of the handler itself, of which the path at the time of the call is kept here. *)
From Verif Require Export Xml_Model.
Local Open Scope list_scope.

(** an element of the path: the name and the attributes, None when there are none (95) *)
Definition step_of : Type := str * option (dict str str).
Definition call : Type := list step_of * xval.
(** utils/xmltodict.py:26 *)
Definition ParsingInterrupted : exn := UserError 26.

Section Stream.
  Variable force : str -> bool.
  Variable item_depth : nat.
  Variable callback : list call -> bool.

  Record sstate := { s_p : pstate; s_path : list step_of; s_calls : list call; s_stopped : bool }.
  Definition step_for (name : str) (attrs : dict str str) : step_of := (name, match attrs with [] => None | _ => Some attrs end).
  (** 119-122: the children read so far, or else the text, or else None *)
  Definition item_of (p : pstate) : xval :=
    match p_item p with
    | Some d => XDict d
    | None => match p_data p with [] => XNone | ds => XStr (concat ds) end
    end.
  Definition s_handle (st : sstate) (e : event) : sstate :=
    if s_stopped st then st else
    match e with
    | Chars _ => {| s_p := handle force (s_p st) e; s_path := s_path st; s_calls := s_calls st; s_stopped := false |}
    | Start name attrs =>                                                                             (* 89-115 *)
        let path := s_path st ++ [step_for name attrs] in
        let p := flush (s_p st) in
        {| s_p := if Nat.ltb item_depth (length path) then start_element attrs p else p; s_path := path; s_calls := s_calls st; s_stopped := false |}
    | End name =>                                                                                     (* 117-154 *)
        let p := flush (s_p st) in
        if Nat.eqb (length (s_path st)) item_depth then
          let calls := s_calls st ++ [(s_path st, item_of p)] in
          if callback calls then {| s_p := end_element force name p; s_path := removelast (s_path st); s_calls := calls; s_stopped := false |}
          else {| s_p := p; s_path := s_path st; s_calls := calls; s_stopped := true |}
        else {| s_p := end_element force name p; s_path := removelast (s_path st); s_calls := s_calls st; s_stopped := false |}
    end.
  Definition s_start : sstate := {| s_p := {| p_buf := []; p_item := None; p_data := []; p_stack := [] |}; s_path := []; s_calls := []; s_stopped := false |}.
  (** 351: what [parse] returns or raises, and the calls made *)
  Definition stream (evs : list event) : res (option (dict str xval)) * list call :=
    let st := fold_left s_handle evs s_start in
    (if s_stopped st then Err ParsingInterrupted else Ok (p_item (s_p st)), s_calls st).
End Stream.
