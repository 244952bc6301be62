(** ngoschema/utils/utils.py: gcs (276-283), mro (287-318), topological_sort (677-695). *)
From Verif Require Export Base.

Section Mro.
  Context {A : Type} {EA : EqDec A}.

  Definition nonempty (s : list A) : bool := match s with [] => false | _ => true end.

  (** utils.py:306 [candidate in s[1:]] for some remaining sequence *)
  Definition in_some_tail (ne : list (list A)) (c : A) : bool := existsb (fun s => mem c (tl s)) ne.

  (** utils.py:304-311: the first head of a sequence that is in no tail; [None] when all are rejected.
      (Classes are truthy, so [if not candidate] at line 312 tests for rejection only.) *)
  Fixpoint c3_candidate (ne seqs : list (list A)) : option A :=
    match seqs with
    | [] => None
    | [] :: seqs' => c3_candidate ne seqs'
    | (c :: _) :: seqs' => if in_some_tail ne c then c3_candidate ne seqs' else Some c
    end.

  (** utils.py:315-318: delete the candidate where it is the head *)
  Definition c3_remove (c : A) (s : list A) : list A :=
    match s with [] => [] | x :: t => if eq_dec x c then t else s end.

  (** utils.py:299-318: the merge loop, one unit of fuel per turn *)
  Fixpoint c3_loop (fuel : nat) (seqs : list (list A)) (out : list A) : res (list A) :=
    match fuel with
    | 0 => Err OutOfFuel
    | S f =>
        let ne := filter nonempty seqs in
        match ne with
        | [] => Ok out
        | _ => match c3_candidate ne ne with
               | None => Err TypeError
               | Some c => c3_loop f (map (c3_remove c) ne) (out ++ [c])
               end
        end
    end.

  (** utils.py:287-318: [lin c] is [list(c.__mro__)] *)
  Definition mro_seqs (lin : A -> list A) (bases : list A) : list (list A) := map lin bases ++ [bases].
  Definition mro (lin : A -> list A) (bases : list A) : res (list A) :=
    let seqs := mro_seqs lin bases in c3_loop (S (length (concat seqs))) seqs [].

  (** utils.py:276-283 [gcs]: [None] is Python's implicit None; no argument at all makes [mros[0]] fail. *)
  Definition gcs (lin : A -> list A) (classes : list A) : res (option A) :=
    let mros := map lin classes in
    match mros with
    | [] => Err IndexError
    | m0 :: _ => Ok (find (fun x => forallb (mem x) mros) m0)
    end.
End Mro.

Section Topo.
  Context {A : Type} {EA : EqDec A}.

  (** A dependency table: item -> set of items it depends on (sets as lists, order irrelevant). *)
  Definition deps := dict A (list A).

  Definition set_diff (s t : list A) : list A := filter (fun x => negb (mem x t)) s.

  (** utils.py:683-684: discard self dependencies (in place: the caller's sets are modified) *)
  Definition topo_discard (d : deps) : deps :=
    map (fun p => (fst p, filter (fun x => negb (beq x (fst p))) (snd p))) d.

  (** utils.py:685-686: dependencies that are not items become items without dependencies *)
  Definition topo_extra (d : deps) : list A := set_diff (dedup (flat_map snd d)) (dkeys d).
  Definition topo_prepare (d : deps) : deps :=
    let d1 := topo_discard d in d1 ++ map (fun x => (x, [])) (topo_extra d1).

  Definition isnil {B} (l : list B) : bool := match l with [] => true | _ => false end.

  (** utils.py:687-695: layers yielded, then the outcome of the final assertion *)
  Fixpoint topo_loop (fuel : nat) (d : deps) : list (list A) * res unit :=
    match fuel with
    | 0 => ([], Err OutOfFuel)
    | S f =>
        let ordered := dkeys (filter (fun p => isnil (snd p)) d) in
        match ordered with
        | [] => ([], match d with [] => Ok tt | _ => Err AssertionError end)
        | _ =>
            let d' := map (fun p => (fst p, set_diff (snd p) ordered))
                          (filter (fun p => negb (mem (fst p) ordered)) d) in
            let r := topo_loop f d' in (ordered :: fst r, snd r)
        end
    end.

  (** utils.py:677-695 *)
  Definition topological_sort (d : deps) : list (list A) * res unit :=
    match d with
    | [] => ([], Ok tt)                                     (* 681-682 *)
    | _ => let d1 := topo_prepare d in topo_loop (S (length d1)) d1
    end.
End Topo.
