(** The files of commands, and the names of commands. *)
From Coq Require Import Ascii Permutation Sorted.
From Verif Require Import Base.
Local Open Scope char_scope.
Local Open Scope list_scope.

(** the file "cmd_<stem>.py", the module "cmd_<stem>" *)
Definition module_of (stem : list ascii) : list ascii := ["c"; "m"; "d"; "_"] ++ stem.
Definition file_of (stem : list ascii) : list ascii := module_of stem ++ ["."; "p"; "y"].
(** [b] is [a] with each underscore made a dash *)
Definition Dashed (a b : list ascii) : Prop := Forall2 (fun x y => (x = "_" /\ y = "-") \/ (x <> "_" /\ y = x)) a b.
(** the commands of files, in the order of the files *)
Inductive Commands : list (list ascii) -> list (list ascii) -> Prop :=
| no_file : Commands [] []
| a_command stem c fs cs : Dashed stem c -> Commands fs cs -> Commands (file_of stem :: fs) (c :: cs)
| not_a_command f fs cs : (forall stem, f <> file_of stem) -> Commands fs cs -> Commands (f :: fs) cs.
(** the order of texts *)
Inductive Text_le : list ascii -> list ascii -> Prop :=
| le_nil b : Text_le [] b
| le_here x y a b : nat_of_ascii x < nat_of_ascii y -> Text_le (x :: a) (y :: b)
| le_later x a b : Text_le a b -> Text_le (x :: a) (x :: b).
(** neither a dash nor an upper case letter *)
Definition Plain (stem : list ascii) : Prop := forall c, In c stem -> c <> "-" /\ ~ 65 <= nat_of_ascii c <= 90.
(** importing from the folder of the commands: a name without a dot is a module exactly when its file is there *)
Definition Folder (files : list (list ascii)) (found : list ascii -> Prop) : Prop :=
  forall stem, ~ In "." stem -> (found (module_of stem) <-> In (file_of stem) files).
(** names in camel case: words of at least two lower case letters or digits, the first a letter, put together with capitals *)
Definition Small (c : ascii) : Prop := 97 <= nat_of_ascii c <= 122.
Definition Word (w : list ascii) : Prop := match w with c :: d :: r => Small c /\ Forall (fun x => Small x \/ 48 <= nat_of_ascii x <= 57) (d :: r) | _ => False end.
Inductive Capped : list (list ascii) -> list ascii -> Prop :=
| capped_nil : Capped [] []
| capped_cons c big w ws t : Word (c :: w) -> nat_of_ascii big + 32 = nat_of_ascii c -> Capped ws t -> Capped ((c :: w) :: ws) ((big :: w) ++ t).
(** [b] is a text in capitals, [a] the same in lower case *)
Definition Shouted (a b : list ascii) : Prop := Forall2 (fun c big => Small c /\ nat_of_ascii big + 32 = nat_of_ascii c) a b.
