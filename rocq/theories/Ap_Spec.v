(** What printing an array should show. *)
From Verif Require Import Base PyVal.

(** texts one after the other, separated *)
Inductive Joined (sep : list ascii) : list (list ascii) -> list ascii -> Prop :=
| j_none : Joined sep [] []
| j_one w : Joined sep [w] w
| j_more w w' ws t : Joined sep (w' :: ws) t -> Joined sep (w :: w' :: ws) (w ++ sep ++ t).
(** a text of more than forty characters is cut *)
Inductive Cut : list ascii -> list ascii -> Prop :=
| c_short t : length t <= 40 -> Cut t t
| c_long a b : length a = 40 -> b <> [] -> Cut (a ++ b) (a ++ ["."; "."; "."]%char).

(** [t] lists the values [vs] between brackets, ten at most, followed by the number of those that are left out *)
Inductive Shows (text : pyval -> list ascii) (show_nat : nat -> list ascii) : list pyval -> list ascii -> Prop :=
| s_all vs es t : length vs <= 10 -> Forall2 (fun v e => Cut (text v) e) vs es -> Joined [","; " "]%char es t ->
    Shows text show_nat vs (["["]%char ++ t ++ ["]"]%char)
| s_ten vs more es t : length vs = 10 -> more <> [] -> Forall2 (fun v e => Cut (text v) e) vs es ->
    Joined [","; " "]%char (es ++ [["+"]%char ++ show_nat (length more) ++ ["."; "."; "."]%char]) t ->
    Shows text show_nat (vs ++ more) (["["]%char ++ t ++ ["]"]%char).
