(** What the text, the canonical name and the keys of an instance should be, from the values its properties have now. *)
From Verif Require Export Ix_Model.

(** the name a user expects: those of the instances around it and its own, with dots *)
Inductive named (st : insts) : nat -> option str -> Prop :=
| named_top n : x_parent (st n) = None -> named st n (x_data (st n) k_name)
| named_in n p c : x_parent (st n) = Some p -> named st p c -> named st n (Some (shown c ++ chars "." ++ shown (x_data (st n) k_name))).

(** [m] is an instance around [n] *)
Inductive around (st : insts) : nat -> nat -> Prop :=
| around_parent n p : x_parent (st n) = Some p -> around st p n
| around_more n p q : x_parent (st n) = Some p -> around st q p -> around st q n.

(** the text a user expects of an instance: its name when it has one, and what it requires *)
Definition has_text (st : insts) (n : nat) (t : str) : Prop :=
  exists c, named st n c /\
    t = chars "<" ++ x_qual (st n) ++ chars " "
        ++ joined (chars " ") (match c with Some (_ :: _) => [shown c] | _ => [] end
                               ++ map (fun k => chars k ++ chars "=" ++ shown (x_data (st n) k)) (x_required (st n)))
        ++ chars ">".

(** the keys it has now, and the text a user expects of an entity *)
Definition keys_now (nd : node) : list (option str) := map (x_data nd) (x_pks nd).
Definition keys_text (nd : node) (ks : list (option str)) : str :=
  chars "<" ++ x_qual nd ++ chars " " ++ joined (chars ", ") (map shown ks) ++ chars ">".

(** instances as they are made: parents first, nothing evaluated and nothing kept *)
Definition blank (st : insts) : Prop :=
  forall n, (forall k, x_val (st n) k = None) /\ x_ids (st n) = None /\ x_keys (st n) = None /\ x_str (st n) = None /\
            (forall p, x_parent (st n) = Some p -> p < n).
