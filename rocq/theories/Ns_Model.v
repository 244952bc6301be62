(** ngoschema/managers/namespace_manager.py. Strings are byte strings: [isdigit], [isupper], [islower] are ASCII, the order of
    [sorted] is the byte order (that of code points for ASCII). *)
From Verif Require Export Base PyVal Str_Model Query_Model Lru_Model KeyMap_Model.
From Coq Require Import DecimalString.
Local Open Scope char_scope. Local Open Scope list_scope.

Notation str := (list ascii).

Definition in_range (lo hi : nat) (c : ascii) : bool := Nat.leb lo (nat_of_ascii c) && Nat.leb (nat_of_ascii c) hi.
Definition is_digit := in_range 48 57.
Definition is_upper := in_range 65 90.
Definition is_lower := in_range 97 122.

Definition replace_char (a b : ascii) (s : str) : str := map (fun c => if beq c a then b else c) s.

(** * 15-28. CLEAN_JS_NAME_REGEX removes what is not in [a-zA-z0-9.-_]; the range A-z runs from 65 to 122 *)
Definition kept_char (c : ascii) : bool := is_lower c || in_range 65 122 c || is_digit c || beq c "." || beq c "-" || beq c "_".
Definition clean_js_name (name : str) : str := replace_char "-" "_" (filter kept_char (last (split_char ":" name) [])).
Definition clean_for_uri (name : str) : str := replace_char "_" "-" (last (split_char ":" name) []).

(** * [sorted(..., reverse=True)[0]] and [sorted(...)[-1]]: the greatest string *)
Fixpoint str_leb (s t : str) : bool :=
  match s, t with
  | [], _ => true
  | _ :: _, [] => false
  | a :: s', b :: t' => if beq a b then str_leb s' t' else Nat.ltb (nat_of_ascii a) (nat_of_ascii b)
  end.
Fixpoint greatest (l : list str) : option str :=
  match l with
  | [] => None
  | x :: l' => Some (match greatest l' with Some y => if str_leb x y then y else x | None => x end)
  end.

(** * 160-163. [not (i+1) % 2] selects the odd positions *)
Fixpoint odd_or_last (odd : bool) (l : list str) : list str :=
  match l with
  | [] => []
  | [x] => [x]
  | x :: l' => if odd then x :: odd_or_last (negb odd) l' else odd_or_last (negb odd) l'
  end.
Definition fragment_to_cname (f : str) : str :=
  ljoin ["."] (map clean_js_name (odd_or_last false (split_char "/" (lstrip ["/"] f)))).

(** * [urlparse]: network location, path and fragment. Simplifications: no ';parameters', any 'letters:' is a scheme *)
Fixpoint cut (c : ascii) (s : str) : str * option str :=
  match s with
  | [] => ([], None)
  | x :: s' => if beq x c then ([], Some s') else let p := cut c s' in (x :: fst p, snd p)
  end.
Definition scheme_char (c : ascii) : bool := is_lower c || is_upper c || is_digit c || mem c ["+"; "-"; "."].
Record url := { netloc : str; path : str; fragment : str }.
Definition urlparse (u : str) : url :=
  let f := cut "#" u in
  let q := fst (cut "?" (fst f)) in
  let rest := match cut ":" q with
              | (c :: sc, Some r) => if forallb scheme_char (c :: sc) && (is_lower c || is_upper c) then r else q
              | _ => q
              end in
  let np := match rest with
            | "/" :: "/" :: r => match cut "/" r with (n, Some p) => (n, "/" :: p) | (n, None) => (n, []) end
            | _ => ([], rest)
            end in
  {| netloc := fst np; path := snd np; fragment := match snd f with Some x => x | None => [] end |}.

(** config/settings.py:53 MS_DOMAIN = 'https://numengo.org/' *)
Definition ms_netloc : str := chars "numengo.org".

(** * 165-179 *)
Definition add_last (cn : list str) (x : str) : list str := removelast cn ++ [last cn [] ++ x].
Definition path_step (cn : list str) (p : str) : list str :=
  match p with
  | [] => cn
  | c :: _ => if is_digit c && negb (beq cn []) then add_last cn ("_" :: replace_char "-" "_" p)
              else if is_digit c then cn else cn ++ [replace_char "-" "_" p]
  end.
Definition uri_to_cname (uri : str) : str :=
  let u := urlparse uri in
  let cn := if beq (netloc u) ms_netloc then [] else [replace_char "-" "_" (hd [] (split_char "." (netloc u)))] in
  let ns_name := ljoin ["."] (fold_left path_step (split_char "/" (path u)) cn) in
  match fragment u with [] => ns_name | f => ns_name ++ fragment_to_cname f end.

(** * the registries: [ReadOnlyChainMap(m1, m2, ...)], first map wins *)
Fixpoint chain_maps (ms : list (dict str str)) : dict str str :=
  match ms with [] => [] | m :: ms' => m ++ filter (fun kv => negb (mem (fst kv) (dkeys m))) (chain_maps ms') end.

(** [str(urlsplit(key).geturl()).lower()] (utils/utils.py:206): an empty fragment disappears (simplification: nothing else
    is re-assembled) *)
Definition uri_norm (u : str) : str :=
  map lower_ascii (match rev u with "#" :: r => if mem "#" r then u else rev r | _ => u end).

(** 71: [cname.startswith(c+'.') or c == cname] *)
Definition in_ns (cname c : str) : bool := is_prefix (c ++ ["."]) cname || beq c cname.

Section Manager.
  (** [UriResolver._doc_store]: normalised uris and documents *)
  Variable docs : dict str pyval.
  (** [ChainMap(self._registry, self._builder_ns)] *)
  Variable reg : dict str str.

  (** 63-73 *)
  Definition find_ns_by_cname (cname : str) : option (str * str) :=
    match greatest (filter (in_ns cname) (dkeys reg)) with
    | Some cn => match dget cn reg with Some u => Some (cn, u) | None => None end
    | None => match find (fun u => in_ns cname (uri_to_cname u)) (dkeys docs) with
              | Some u => Some (uri_to_cname u, u)
              | None => None
              end
    end.
  (** 75-84 *)
  Definition find_ns_by_uri (uri : str) : option (str * str) :=
    match greatest (map fst (filter (fun cu => is_prefix (snd cu) uri) reg)) with
    | Some cn => match dget cn reg with Some u => Some (cn, u) | None => None end
    | None => let uri_ns := fst (cut "#" uri) in
              if dmem (uri_norm uri_ns) docs then Some (uri_to_cname uri_ns, uri_ns) else None
    end.

  (** 103-115; [None] is Python's None *)
  Definition id_cname (ref : str) : option str :=
    let ns := find_ns_by_uri ref in
    let frag := match ns with
                | Some (_, u) => match u with [] => ref | _ => if is_prefix u ref then skipn (length u) ref else ref end
                | None => ref end in
    match frag with
    | [] => option_map fst ns
    | _ => let f := fragment_to_cname (strip ["#"] frag) in
           Some (match ns with Some ((c :: _) as cn, _) => cn ++ "." :: f | _ => f end)
    end.

  (** [dpath.util.search(doc, '*/n1/*/n2...', yielded=True)], first match: the tree is walked depth first in document order.
      Simplification: the names are not empty and without the wildcards of glob patterns. *)
  Definition index_name (n : nat) : str := chars (NilEmpty.string_of_uint (Nat.to_uint n)).
  Definition children (v : pyval) : list (str * pyval) :=
    match v with
    | VDict l => map (fun kv => (chars (fst kv), snd kv)) l
    | VList l | VTup l => combine (map index_name (seq 0 (length l))) l
    | _ => []
    end.
  Fixpoint first_some {A B} (f : A -> option B) (l : list A) : option B :=
    match l with [] => None | x :: l' => match f x with Some y => Some y | None => first_some f l' end end.
  Fixpoint search (names : list str) (v : pyval) : option (list str) :=
    match names with
    | [] => Some []
    | n :: ns => first_some (fun kc => first_some (fun kd => if beq (fst kd) n then option_map (fun p => fst kc :: n :: p) (search ns (snd kd)) else None)
                                         (children (snd kc))) (children v)
    end.

  Definition slash_join : list str -> str := ljoin ["/"].
  Definition defs : str := chars "$defs".
  Definition properties : str := chars "properties".

  (** 156 *)
  Definition last_tag (cns : list str) : res str :=
    match rev cns with
    | y :: x :: _ :: _ =>
        match x with
        | [] => Err IndexError
        | c :: _ => if is_upper c then match y with [] => Err IndexError | d :: _ => Ok (if is_lower d then properties else defs) end
                    else Ok defs
        end
    | _ => Ok defs
    end.
  (** 131-158 *)
  Definition cname_id (cname current_ns : str) : res str :=
    let ns := find_ns_by_cname cname in
    let fragment_cname := match ns with Some (n, _) => skipn (length n) cname | None => cname end in
    let cns := match split_char "." fragment_cname with [] :: r => r | l => l end in
    let found := match fragment_cname, ns with
                 | _ :: _, Some (_, u) => match dget (uri_norm u) docs with
                                          | Some doc => option_map (fun p => u ++ (if mem "#" u then ["/"] else ["#"; "/"]) ++ slash_join p) (search cns doc)
                                          | None => None end
                 | _, _ => None end in
    match found with
    | Some id => Ok id                                                                                 (* 150 *)
    | None =>
        do parts <- match fragment_cname with
                    | [] => Ok []
                    | _ => match rev cns with
                           | [] => Err IndexError
                           | y :: r => do t <- last_tag cns; Ok (flat_map (fun c => [defs; c]) (rev r) ++ [t; y])
                           end
                    end;
        match (match ns with Some (_, c :: u) => Some (c :: u) | _ => option_map snd (find_ns_by_cname current_ns) end) with   (* 157 *)
        | Some u => Ok (slash_join ((u ++ (if mem "#" u then [] else ["#"])) :: parts))
        | None => Err TypeError
        end
    end.
End Manager.

(** * the manager *)
Record mgr := {
  m_local : dict str str; m_parents : list (dict str str); m_builder : dict str str;
  m_docs : dict str pyval;
  m_cur : str; m_cur_uri : str;
  m_ids : dict (str * str) (option str);      (* lru_cache(1024) of _get_id_cname_cached *)
  m_names : dict (str * str) str              (* lru_cache(1024) of _get_cname_id_cached *)
}.
Definition registry (m : mgr) : dict str str := chain_maps (m_local m :: m_parents m).
Definition full_registry (m : mgr) : dict str str := chain_maps [registry m; m_builder m].
(** 36-41 *)
Definition new_mgr (parents : list (dict str str)) (builder : dict str str) (docs : dict str pyval) : mgr :=
  {| m_local := [([], ["#"])]; m_parents := parents; m_builder := builder; m_docs := docs; m_cur := []; m_cur_uri := ["#"]; m_ids := []; m_names := [] |}.
Definition with_local (m : mgr) (l : dict str str) : mgr :=
  {| m_local := l; m_parents := m_parents m; m_builder := m_builder m; m_docs := m_docs m; m_cur := m_cur m; m_cur_uri := m_cur_uri m; m_ids := m_ids m; m_names := m_names m |}.

(** 43-46 *)
Definition add_ns (m : mgr) (uri : str) (name : option str) : res mgr :=
  do uri <- match hd [] (split_char "#" uri) with
            | [] => match dget [] (registry m) with Some r => Ok (hd [] (split_char "#" r) ++ uri) | None => Err KeyError end
            | _ => Ok uri end;
  Ok (with_local m (dset (match name with None => uri_to_cname uri | Some n => n end) uri (m_local m))).
(** 48-53 *)
Definition set_current (m : mgr) (name : str) : res mgr :=
  match greatest (filter (fun k => is_prefix k name) (dkeys (registry m))) with
  | None => Err AssertionError
  | Some cn => match dget cn (registry m) with
               | None => Err KeyError
               | Some u => Ok {| m_local := dset [] u (m_local m); m_parents := m_parents m; m_builder := m_builder m; m_docs := m_docs m;
                                 m_cur := cn; m_cur_uri := u; m_ids := m_ids m; m_names := m_names m |}
               end
  end.
(** 181-186 (without the case of an empty name) *)
Definition register_ns (m : mgr) (uri : str) : mgr :=
  let ns_uri := fst (cut "#" uri) in
  let cname := uri_to_cname ns_uri in
  if dmem cname (m_builder m) then m else
  {| m_local := m_local m; m_parents := m_parents m; m_builder := dset cname ns_uri (m_builder m); m_docs := m_docs m;
     m_cur := m_cur m; m_cur_uri := m_cur_uri m; m_ids := m_ids m; m_names := m_names m |}.

(** 93-101; [cname.startswith] raises AttributeError on None when relative *)
Definition get_id_cname (m : mgr) (ref : str) (relative : bool) : res (option str) * mgr :=
  let r := lru_call 1024 (fun k => Ok (id_cname (m_docs m) (full_registry m) (fst k))) (ref, m_cur m) (m_ids m) in
  let m' := {| m_local := m_local m; m_parents := m_parents m; m_builder := m_builder m; m_docs := m_docs m;
               m_cur := m_cur m; m_cur_uri := m_cur_uri m; m_ids := snd r; m_names := m_names m |} in
  ((do o <- fst r;
    match relative, m_cur m with
    | true, _ :: _ => match o with
                      | None => Err AttributeError
                      | Some cname => if is_prefix (m_cur m) cname then
                                        match split_char "." (skipn (length (m_cur m)) cname) with
                                        | [] :: l => Ok (Some (ljoin ["."] l))
                                        | _ => Ok (Some (m_cur m))
                                        end
                                      else Ok o
                      end
    | _, _ => Ok o
    end), m').

(** 118-124 *)
Fixpoint pop_dots (rcn : list str) (cname : str) : res (list str * str) :=
  match cname with
  | [] => Err IndexError
  | c :: r => if beq c "." then match rcn with [] => Err IndexError | _ => pop_dots (removelast rcn) r end else Ok (rcn, cname)
  end.
Definition absolute (cur cname : str) : res str :=
  match cname with
  | "." :: r => do p <- pop_dots (split_char "." cur) r; Ok (ljoin ["."] (fst p ++ [snd p]))
  | _ => Ok cname
  end.
(** 117-129; [len(u.strip('#'))] is the length of the document part *)
Definition get_cname_id (m : mgr) (cname : str) : res str * mgr :=
  match absolute (m_cur m) cname with
  | Err e => (Err e, m)
  | Ok cn =>
      let r := lru_call 1024 (fun k => cname_id (m_docs m) (full_registry m) (fst k) (snd k)) (cn, m_cur m) (m_names m) in
      let m' := {| m_local := m_local m; m_parents := m_parents m; m_builder := m_builder m; m_docs := m_docs m;
                   m_cur := m_cur m; m_cur_uri := m_cur_uri m; m_ids := m_ids m; m_names := snd r |} in
      ((do id <- fst r;
        let d := hd [] (split_char "#" (m_cur_uri m)) in
        Ok (if is_prefix (d ++ ["#"]) id then skipn (length d) id else id)), m')
  end.
