From Verif Require Export Coll_Model.

(** the value at a path of keys *)
Inductive At : pyval -> list pykey -> pyval -> Prop :=
| At_here v : At v [] v
| At_step o k c ks v : getitem o k = Ok c -> At c ks v -> At o (k :: ks) v.

(** the leaf (non-mapping) values of a nested dictionary with their key paths *)
Inductive LeafAt : pyval -> list string -> pyval -> Prop :=
| Leaf_here l k v : In (k, v) l -> is_dict v = false -> LeafAt (VDict l) [k] v
| Leaf_in l k d p v : In (k, d) l -> LeafAt d p v -> LeafAt (VDict l) (k :: p) v.

(** path [p] comes before path [q] in [d]: at the first difference, the key of [p] was inserted before that of [q] *)
Inductive PathBefore : pyval -> list string -> list string -> Prop :=
| PB_differ l1 l2 l3 k1 v1 k2 v2 p q : PathBefore (VDict (l1 ++ (k1, v1) :: l2 ++ (k2, v2) :: l3)) (k1 :: p) (k2 :: q)
| PB_inside l k d p q : In (k, d) l -> PathBefore d p q -> PathBefore (VDict l) (k :: p) (k :: q).

Fixpoint join (sep : string) (ws : list string) : string :=
  match ws with [] => EmptyString | [w] => w | w :: ws' => (w ++ sep ++ join sep ws')%string end.
(** the name given to a path when a separator is passed: only the first join uses it *)
Definition path_name (sep : string) (p : list string) : string :=
  match p with [] => EmptyString | [k] => k | k :: p' => (k ++ sep ++ join "." p')%string end.

Definition has_char (c : ascii) (s : string) : Prop := In c (list_ascii_of_string s).

(** textual form of a path: names separated by dots, each followed by bracketed indices *)
Definition bracketed (i : list ascii) : list ascii := "["%char :: i ++ ["]"%char].
Definition render_part (p : list ascii * list (list ascii)) : list ascii := fst p ++ flat_map bracketed (snd p).
Fixpoint render_path (ps : list (list ascii * list (list ascii))) : list ascii :=
  match ps with [] => [] | [p] => render_part p | p :: ps' => render_part p ++ "."%char :: render_path ps' end.
Definition clean_word (w : list ascii) : Prop := ~ In "."%char w /\ ~ In "["%char w /\ ~ In "]"%char w.
