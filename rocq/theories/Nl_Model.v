(** ngoschema/managers/namespace_manager.py 194-217: the listing of namespaces and of the definitions of one. *)
From Verif Require Import Base PyVal Str_Model Bracket_Model Ns_Model.
Local Open Scope char_scope. Local Open Scope list_scope.

(** 194-197, a dict comprehension over the uris of the documents: a later document of the same name replaces the former *)
Definition available_namespaces (m : mgr) : dict str str :=
  fold_left (fun d ud => dset (uri_to_cname (fst ud)) (fst ud) d) (m_docs m) [].

(** [sorted] on names *)
Fixpoint put_name (x : str) (l : list str) : list str :=
  match l with [] => [x] | y :: l' => if str_leb x y then x :: l else y :: put_name x l' end.
Definition sort_names (l : list str) : list str := fold_right put_name [] l.

(** 203-208; [contains=None] and [contains=''] both skip the filter. The result is the ordered dict, as its items. *)
Definition namespaces (m : mgr) (contains : option str) : list (str * str) :=
  let ns := chain_maps [registry m; m_builder m; available_namespaces m] in                            (* 204 *)
  let nsk := dkeys ns in                                                                               (* 205 *)
  let nsk := match contains with
             | Some ((_ :: _) as c) => filter (fun n => contains_sub c n) nsk                          (* 206-207 *)
             | _ => nsk
             end in
  flat_map (fun k => match dget k ns with Some u => [(k, u)] | None => [] end) (sort_names nsk).      (* 208; each k is a key *)

Section Definitions.
  (** [resolve_uri]: a document, of which only the names under a tag are kept ([doc.get(tag, {})], 215) *)
  Variable resolve : option str -> res (str -> list str).
  Definition of_tag (cname ns_uri tag : str) (names : list str) (defs : dict str str) : dict str str :=
    fold_left (fun d k => dset (cname ++ "." :: k) (ns_uri ++ "/" :: tag ++ "/" :: k) d) names defs.
  (** 210-217. The first line looks for the name of an identifier although what it is given is a name. *)
  Definition get_cname_definitions (m : mgr) (cname : str) : res (dict str str) :=
    do ns_uri <- fst (get_id_cname m cname false);                                                     (* 211 *)
    do doc <- resolve ns_uri;                                                                          (* 212 *)
    let u := match ns_uri with Some u => u | None => chars "None" end in
    Ok (of_tag cname u (chars "definitions") (doc (chars "definitions"))
         (of_tag cname u (chars "$defs") (doc (chars "$defs")) [])).                                   (* 213-217 *)
End Definitions.
