(** Relative URLs: ngoschema/resolvers/uri_resolver.py:82-90 (relative_url), with Python's posixpath.dirname, posixpath.relpath
    (abspath, normpath) and, to read the result, the path part of urllib.parse.urljoin. A URL is its host and its path;
    schemes, parameters, queries and fragments are left out (relative_url ignores them). [cwd] is the current directory of the
    process, which relpath looks at. *)
From Verif Require Export Coll_Model Str_Model.
Local Open Scope list_scope.
Local Open Scope char_scope.

Definition str := list ascii.
Record url := { u_host : str; u_path : str }.
Definition dot : str := ["."].
Definition dots : str := ["."; "."].

(** posixpath.dirname: what is before the last slash, without the slashes at its end unless there is nothing else *)
Fixpoint rstrip_slash (s : str) : str :=
  match s with
  | [] => []
  | c :: s' => match rstrip_slash s' with [] => if beq c "/" then [] else [c] | r => c :: r end
  end.
(** [p[:p.rfind('/') + 1]] *)
Fixpoint upto_slash (s : str) : str :=
  match s with
  | [] => []
  | c :: s' => match upto_slash s' with [] => if beq c "/" then [c] else [] | r => c :: r end
  end.
Definition dirname (p : str) : str :=
  let head := upto_slash p in
  match rstrip_slash head with [] => head | h => h end.

(** normpath of an absolute path, on the components read so far, the last one first *)
Fixpoint norm (acc : list str) (comps : list str) : list str :=
  match comps with
  | [] => rev acc
  | c :: comps' =>
      match c with
      | [] => norm acc comps'
      | _ => if beq c dot then norm acc comps'
             else if beq c dots then norm (match acc with [] => [] | _ :: acc' => acc' end) comps'
             else norm (c :: acc) comps'
      end
  end.
(** [abspath(p)] for a relative path, as a list of components *)
Definition abspath (cwd : list str) (p : str) : list str := norm (rev cwd) (split_char "/" p).
(** commonprefix of two lists *)
Fixpoint common (a b : list str) : nat :=
  match a, b with x :: a', y :: b' => if beq x y then S (common a' b') else 0 | _, _ => 0 end.
Definition relpath (cwd : list str) (path start : str) : str :=
  let s := abspath cwd start in
  let p := abspath cwd path in
  let i := common s p in
  match repeat dots (length s - i) ++ skipn i p with [] => dot | l => ljoin ["/"] l end.

Definition relative_url (cwd : list str) (target base : url) : res str :=
  if negb (beq (u_host base) (u_host target)) then Err ValueError
  else Ok (relpath cwd ("." :: u_path target) ("." :: dirname (u_path base))).

(** urllib.parse.urljoin(base, path), for a path on its own *)
Fixpoint resolve (acc : list str) (segs : list str) : list str :=
  match segs with
  | [] => rev acc
  | s :: segs' =>
      if beq s dots then resolve (match acc with [] => [] | _ :: acc' => acc' end) segs'
      else if beq s dot then resolve acc segs'
      else resolve (s :: acc) segs'
  end.
Definition nonempty (s : str) : bool := match s with [] => false | _ => true end.
(** [segments[1:-1] = filter(None, segments[1:-1])] *)
Definition inner_filter (l : list str) : list str :=
  match l with
  | [] => []
  | x :: l' => x :: filter nonempty (removelast l') ++ match l' with [] => [] | _ => [last l' []] end
  end.
Definition url_join (base : str) (path : str) : str :=
  match path with
  | [] => base
  | _ =>
      let parts := split_char "/" base in
      let parts := if nonempty (last parts []) then removelast parts else parts in
      let segs := match path with
                  | "/" :: _ => split_char "/" path
                  | _ => inner_filter (parts ++ split_char "/" path) end in
      let out := resolve [] segs ++ (if beq (last segs []) dot || beq (last segs []) dots then [[]] else []) in
      match ljoin ["/"] out with [] => ["/"] | r => r end
  end.
