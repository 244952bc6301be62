(** Resolvers of references: ngoschema/resolvers/uri_resolver.py:92-145 (class UriResolver: register_doc, unregister_doc,
    __init__, create) and 190-205 (_resolve), on the documents of Uri_Model. The base class is jsonschema's RefResolver
    (a library, version 3: resolve, resolve_from_url, resolve_remote), modelled by [rs_read] and [Fetch]. *)
From Verif Require Export Base PyVal Uri_Model.
Local Open Scope char_scope. Local Open Scope list_scope.
Notation str := (list ascii).

(** jsonschema.exceptions.RefResolutionError *)
Definition RefResolutionError : exn := UserError 73.

(** [rs_store = None]: the resolver works on the shared store itself (line 129) *)
Record resolver := { rs_base : str; rs_referrer : pyval; rs_store : option (dict str pyval); rs_cache : dict str pyval }.
Record world := { w_docs : docs; w_res : list resolver }.

Section Resolvers.
  (** key_modifier of UriDict (utils/utils.py:202-206); urllib's urljoin; downloading a JSON document *)
  Variable norm : str -> str.
  Variable urljoin : str -> str -> str.
  Variable remote : str -> res pyval.
  Variable default_uri : str.                          (* settings.DEFAULT_MS_URI *)
  Variables size rsize : nat.                          (* lru_cache(128) of resolve_doc, lru_cache(1024) of a resolver *)

  (** 108-134 __init__: [store or UriResolver._doc_store], an empty store is false; then [self.store[base_uri] = referrer] *)
  Definition rs_init (base : str) (referrer : pyval) (st : option (dict str pyval)) (shared : dict str pyval)
    : dict str pyval * resolver :=
    match st with
    | Some ((_ :: _) as d) => (shared, {| rs_base := base; rs_referrer := referrer; rs_store := Some (dset base referrer d); rs_cache := [] |})
    | _ => (dset (norm base) referrer shared, {| rs_base := base; rs_referrer := referrer; rs_store := None; rs_cache := [] |})
    end.

  (** 136-145 create; [dict(UriResolver._doc_store)] is a plain dictionary with the normalised keys. The result of
      resolve_uri when no schema is given, with its memo table, is that of Uri_Model. *)
  Definition rs_create (uri : str) (schema : option pyval) (s : docs) : docs * res resolver :=
    let uri := match uri with [] => default_uri | _ => uri end in
    let doc_uri := fst (urldefrag uri) in
    match dget (norm doc_uri) (store s) with
    | Some d => let p := rs_init doc_uri d None (store s) in ({| store := fst p; memo := memo s |}, Ok (snd p))
    | None =>
        let q := match schema with Some v => (s, Some (Ok v)) | None => doc_step norm size s (Resolve uri) end in
        match snd q with
        | Some (Ok v) => let p := rs_init uri v (Some (store (fst q))) (store (fst q)) in
                         ({| store := fst p; memo := memo (fst q) |}, Ok (snd p))
        | Some (Err e) => (fst q, Err e)
        | None => (fst q, Err OutOfFuel)               (* never: Resolve always answers *)
        end
    end.

  (** jsonschema: [self.store[url]], else the document is downloaded and kept in the store ([cache_remote]) *)
  Definition rs_get (st : option (dict str pyval)) (shared : dict str pyval) (url : str) : option pyval :=
    match st with Some d => dget url d | None => dget (norm url) shared end.
  Definition rs_put (url : str) (v : pyval) (st : option (dict str pyval)) (shared : dict str pyval)
    : option (dict str pyval) * dict str pyval :=
    match st with Some d => (Some (dset url v d), shared) | None => (None, dset (norm url) v shared) end.
  (** resolve_from_url: the stores afterwards and the result *)
  Definition rs_read (st : option (dict str pyval)) (shared : dict str pyval) (url : str)
    : (option (dict str pyval) * dict str pyval) * res pyval :=
    let uf := urldefrag url in
    let frag d := match resolve_fragment d (snd uf) with Ok v => Ok v | Err _ => Err RefResolutionError end in
    match rs_get st shared (fst uf) with
    | Some d => ((st, shared), frag d)
    | None => match remote (fst uf) with
              | Ok d => (rs_put (fst uf) d st shared, frag d)
              | Err _ => ((st, shared), Err RefResolutionError)
              end
    end.
  (** resolve: the result for a full url is kept in a table of [rsize] entries *)
  Definition rs_fetch (ref : str) (r : resolver) (shared : dict str pyval) : (resolver * dict str pyval) * res pyval :=
    let url := urljoin (rs_base r) ref in
    let p := rs_read (rs_store r) shared url in
    let c := lru_call rsize (fun u => snd (rs_read (rs_store r) shared u)) url (rs_cache r) in
    match dget url (rs_cache r) with
    | Some _ => (({| rs_base := rs_base r; rs_referrer := rs_referrer r; rs_store := rs_store r; rs_cache := snd c |}, shared), fst c)
    | None => (({| rs_base := rs_base r; rs_referrer := rs_referrer r; rs_store := fst (fst p); rs_cache := snd c |}, snd (fst p)), fst c)
    end.

  (** what programs do; [Fetch i ref]: the [i]th resolver made resolves [ref] *)
  Inductive rs_op := Docs (o : doc_op) | Create (uri : str) (schema : option pyval) | Fetch (i : nat) (ref : str).
  Definition rs_step (w : world) (o : rs_op) : world * option (res pyval) :=
    match o with
    | Docs d => let p := doc_step norm size (w_docs w) d in ({| w_docs := fst p; w_res := w_res w |}, snd p)
    | Create uri schema =>
        match rs_create uri schema (w_docs w) with
        | (s, Ok r) => ({| w_docs := s; w_res := w_res w ++ [r] |}, None)
        | (s, Err e) => ({| w_docs := s; w_res := w_res w |}, Some (Err e))
        end
    | Fetch i ref =>
        match nth_error (w_res w) i with
        | None => (w, None)
        | Some r =>
            let p := rs_fetch ref r (store (w_docs w)) in
            ({| w_docs := {| store := snd (fst p); memo := memo (w_docs w) |};
                w_res := firstn i (w_res w) ++ fst (fst p) :: skipn (S i) (w_res w) |}, Some (snd p))
        end
    end.
  Fixpoint rs_run (w : world) (os : list rs_op) : world :=
    match os with [] => w | o :: os' => rs_run (fst (rs_step w o)) os' end.

  (** 190-205 _resolve, the resolution of the files given by URI (models/files.py:129, 135). [download] is
      requests.get(uri).content and [remote] requests.get(uri).json(); None is Python's None (no branch returns) *)
  Definition uri_resolve (download : str -> res pyval) (value : str) (rem : bool) (s : dict str pyval)
    : dict str pyval * res (option pyval) :=
    let uf := urldefrag value in
    match (match dget (norm (fst uf)) s with Some VNone => None | o => o end) with
    | Some d => (s, match snd uf with [] => Ok (Some d) | f => do v <- resolve_fragment d f; Ok (Some v) end)
    | None =>
        if rem then
          match snd uf with
          | [] => (s, match download (fst uf) with Ok v => Ok (Some v) | Err _ => Err InvalidValue end)
          | f => match remote (fst uf) with
                 | Ok d => (dset (norm (fst uf)) d s, match resolve_fragment d f with Ok v => Ok (Some v) | Err _ => Err InvalidValue end)
                 | Err _ => (s, Err InvalidValue)
                 end
          end
        else (s, Ok None)
    end.
End Resolvers.
