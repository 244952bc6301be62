(** The identifier type, ngoschema/types/uri.py:64-115, on top of the namespace manager (Ns_Model) and [scope] (Uri_Model).
    Strings are byte strings, so [\d] is an ASCII digit. *)
From Verif Require Export Ns_Model Uri_Model.
Local Open Scope char_scope. Local Open Scope list_scope.

(** 65. [cn_re = ^[\.\da-zA-Z_]+$] with [search]: [$] also matches before one final newline *)
Definition newline : ascii := ascii_of_nat 10.
Definition cn_char (c : ascii) : bool := beq c "." || is_digit c || is_lower c || is_upper c || beq c "_".
Fixpoint cn_rest (s : str) : bool :=
  match s with
  | [] => true
  | c :: s' => if cn_char c then cn_rest s' else beq c newline && match s' with [] => true | _ => false end
  end.
Definition cn_match (s : str) : bool := match s with c :: s' => cn_char c && cn_rest s' | [] => false end.
(** [m.group()]: the match, without the final newline *)
Definition cn_group (s : str) : str := filter cn_char s.

(** 88-98. [Id._convert]; the manager is the one [find_ns_mgr] selects *)
Definition id_convert (m : mgr) (value : str) : res str * mgr :=
  match value with
  | [] => (Ok [], m)
  | _ =>
      let r := if cn_match value then get_cname_id m value else (Ok value, m) in
      ((do uri <- fst r;
        Ok (scope (if mem "#" uri then uri else uri ++ ["#"]) (m_cur_uri m))), snd r)
  end.

(** 100-110. [Id._serialize]; [canonical] is the option, the schema's flag otherwise (115: true for the type 'canonical') *)
Definition id_serialize (canonical : bool) (m : mgr) (value : str) : res (option str) * mgr :=
  if canonical then get_id_cname m value false
  else
    let doc_id := hd [] (split_char "#" (m_cur_uri m)) in
    (Ok (Some (if is_prefix (doc_id ++ ["#"]) value then skipn (length doc_id) value else value)), m).

(** 54-60 through urllib: ['#' in urlparse(v).geturl()] holds when the part after the first '#' is not empty, geturl writes no
    '#' before an empty fragment (simplification: the control characters urlsplit removes and its ValueError on a malformed
    host are left out) *)
Fixpoint has_fragment (v : str) : bool :=
  match v with
  | [] => false
  | c :: v' => if beq c "#" then match v' with [] => false | _ => true end else has_fragment v'
  end.

(** 77-86. [Id._check] with the option [canonical]; without a context [find_ns_mgr(None)] raises AttributeError
    (contexts/ns_manager_context.py, [context.maps]) *)
Definition id_check (canonical : bool) (ctx : option mgr) (value : str) : res str :=
  if has_fragment value then Ok value
  else if cn_match value && canonical then
    match ctx with
    | None => Err AttributeError
    | Some m => do _ <- fst (get_cname_id m (cn_group value)); Ok value
    end
  else Err TypeError.
