(** ngoschema/resolvers/uri_resolver.py: resolve_doc 44-55, resolve_fragment 58-69, resolve_uri 72-79,
    unregister_doc/register_doc 99-108, scope 208-209. Strings are byte strings. *)
From Verif Require Export Base PyVal Str_Model Query_Model Lru_Model.
Local Open Scope char_scope. Local Open Scope list_scope.

(** * [urllib.parse.unquote]: each '%' followed by two hexadecimal digits becomes that byte. Simplification: the bytes are
    not decoded from UTF-8 (byte sequences that are not UTF-8 are kept instead of replaced). *)
Definition hex_value (c : ascii) : option nat :=
  let n := nat_of_ascii c in
  if Nat.leb 48 n && Nat.leb n 57 then Some (n - 48)
  else if Nat.leb 65 n && Nat.leb n 70 then Some (n - 55)
  else if Nat.leb 97 n && Nat.leb n 102 then Some (n - 87)
  else None.
Fixpoint unquote (s : list ascii) : list ascii :=
  match s with
  | [] => []
  | c :: s1 =>
      if beq c "%" then
        match s1 with
        | a :: (b :: s2) as s1' =>
            match hex_value a, hex_value b with
            | Some x, Some y => ascii_of_nat (16 * x + y) :: unquote s2
            | _, _ => c :: unquote s1
            end
        | _ => c :: unquote s1
        end
      else c :: unquote s1
  end.

(** [s.replace(ab, r)] for a two-character [ab] *)
Fixpoint replace2 (a b r : ascii) (s : list ascii) : list ascii :=
  match s with
  | [] => []
  | x :: s1 => match s1 with
               | y :: s2 => if beq x a && beq y b then r :: replace2 a b r s2 else x :: replace2 a b r s1
               | [] => [x]
               end
  end.

(** uri_resolver.py:63 *)
Definition unescape (part : list ascii) : list ascii := replace2 "~" "0" "~" (replace2 "~" "1" "/" part).

(** uri_resolver.py:61-69: every exception of one step becomes InvalidValue. Indexing a list converts the part with
    [int] ([parse_int]: sign and digits; simplification: no blanks nor underscores). *)
Definition fragment_step (doc : pyval) (part : list ascii) : res pyval :=
  let part := unescape part in
  match (match doc with
         | VList l | VTup l => match parse_int part with Some z => py_index l z | None => Err ValueError end
         | VDict l => match dget (unchars part) l with Some v => Ok v | None => Err KeyError end
         | _ => Err TypeError
         end) with
  | Ok v => Ok v
  | Err _ => Err InvalidValue
  end.
Fixpoint follow (doc : pyval) (parts : list (list ascii)) : res pyval :=
  match parts with
  | [] => Ok doc
  | p :: ps => do v <- fragment_step doc p; follow v ps
  end.
(** uri_resolver.py:59-60 *)
Definition resolve_fragment (doc : pyval) (fragment : list ascii) : res pyval :=
  let fragment := lstrip ["/"] fragment in
  follow doc (match fragment with [] => [] | _ => split_char "/" (unquote fragment) end).

(** * scope (208-209); [split("#")[1]] exists since '#' is in [uri] *)
Definition scope (uri base_id : list ascii) : list ascii :=
  if mem "#" uri then
    match split_char "#" uri with
    | d :: f :: _ => (match d with [] => hd [] (split_char "#" base_id) | _ => d end) ++ "#" :: f
    | _ => uri
    end
  else uri.

(** * documents: [UriResolver._doc_store] (a UriDict, [norm] is its key_modifier) and the memo table of [resolve_doc] *)
(** [urldefrag]: cut at the first '#' (simplification: the standard library also re-assembles the parts) *)
Fixpoint urldefrag (u : list ascii) : list ascii * list ascii :=
  match u with
  | [] => ([], [])
  | c :: u' => if beq c "#" then ([], u') else let p := urldefrag u' in (c :: fst p, snd p)
  end.

Section Docs.
  Variable norm : list ascii -> list ascii.
  Variable size : nat.                                (* lru_cache(128) *)
  Record docs := { store : dict (list ascii) pyval; memo : dict (list ascii) pyval }.

  (** 44-55 without the memo table, [remote=False] *)
  Definition read_doc (st : dict (list ascii) pyval) (uri : list ascii) : res pyval :=
    match dget (norm uri) st with
    | Some VNone | None => Err (UserError 0)          (* Exception('Unresolvable uri ...') *)
    | Some d => Ok d
    end.

  Inductive doc_op := Register (uri : list ascii) (d : pyval) | Unregister (uri : list ascii) | Resolve (uri_id : list ascii).
  Definition doc_step (s : docs) (o : doc_op) : docs * option (res pyval) :=
    match o with
    | Register u d => ({| store := dset (norm u) d (store s); memo := memo s |}, None)          (* 107-108 *)
    | Unregister u => ({| store := ddel (norm u) (store s); memo := memo s |}, None)            (* 100-104 *)
    | Resolve u =>                                                                              (* 72-79 *)
        let uf := urldefrag u in
        let rm := lru_call size (read_doc (store s)) (fst uf) (memo s) in
        ({| store := store s; memo := snd rm |},
         Some (do d <- fst rm; match resolve_fragment d (snd uf) with Ok v => Ok v | Err _ => Err InvalidValue end))
    end.
  Fixpoint doc_run (s : docs) (os : list doc_op) : docs :=
    match os with [] => s | o :: os' => doc_run (fst (doc_step s o)) os' end.
  Definition docs0 : docs := {| store := []; memo := [] |}.
  (** what resolving [u] answers after the history [os] *)
  Definition answer (os : list doc_op) (u : list ascii) : option (res pyval) := snd (doc_step (doc_run docs0 os) (Resolve u)).
End Docs.
