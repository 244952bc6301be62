From Verif Require Export Str_Model.

(** [old] occurs in [s] after the text [a] *)
Definition OccursAt (old s a : list ascii) : Prop := exists b, s = a ++ old ++ b.

(** replacing at most [n] occurrences from the right *)
Inductive RRepl (old new : list ascii) : nat -> list ascii -> list ascii -> Prop :=
| RR_stop s : RRepl old new 0 s s
| RR_none n s : (forall a, ~ OccursAt old s a) -> RRepl old new n s s
| RR_last n a b a' : (forall a2, OccursAt old (a ++ old ++ b) a2 -> length a2 <= length a) ->
    RRepl old new n a a' -> RRepl old new (S n) (a ++ old ++ b) (a' ++ new ++ b).

(** a text read as a sequence of pieces: plain characters where no key starts, or the first key (in table order) that
    starts there *)
Inductive piece := PChar (c : ascii) | PKey (k v : list ascii).
Definition piece_in (p : piece) : list ascii := match p with PChar c => [c] | PKey k _ => k end.
Definition piece_out (p : piece) : list ascii := match p with PChar c => [c] | PKey _ v => v end.
Fixpoint GoodPieces (kvs : list (list ascii * list ascii)) (ps : list piece) : Prop :=
  match ps with
  | [] => True
  | p :: ps' =>
      let rest := flat_map piece_in ps in
      match p with
      | PChar _ => forall k v r, In (k, v) kvs -> rest <> k ++ r
      | PKey k v => exists l1 l2, kvs = l1 ++ (k, v) :: l2 /\ forall k' v' r, In (k', v') l1 -> rest <> k' ++ r
      end /\ GoodPieces kvs ps'
  end.

(** Python's white space: tab to carriage return, the four separators, space, next line and no-break space *)
Definition IsSpace (c : ascii) : Prop :=
  let n := nat_of_ascii c in (9 <= n /\ n <= 13) \/ (28 <= n /\ n <= 31) \/ n = 32 \/ n = 133 \/ n = 160.
(** [w] is [s] without its surrounding white space *)
Definition StripOf (s w : list ascii) : Prop :=
  exists a b, s = a ++ w ++ b /\ (forall c, In c (a ++ b) -> IsSpace c) /\
    (forall c r, w = c :: r -> ~ IsSpace c) /\ (forall r c, w = r ++ [c] -> ~ IsSpace c).
(** [out] is [s] with every newline written as backslash, n *)
Inductive Inlined : list ascii -> list ascii -> Prop :=
| In_nil : Inlined [] []
| In_newline s out : Inlined s out -> Inlined ("010"%char :: s) (["\"; "n"]%char ++ out)
| In_char c s out : c <> "010"%char -> Inlined s out -> Inlined (c :: s) (c :: out).
