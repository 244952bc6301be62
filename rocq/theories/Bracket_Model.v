(** ngoschema/utils/utils.py:508-516 (grouper) and 542-598 (Bracket). *)
From Verif Require Export Base.

(** * grouper (utils.py:508-516)
    The generator is modelled by the list of pages it yields for a finite iterable. [page] is the page being
    filled. *)
Section Grouper.
  Context {A : Type}.
  Fixpoint grouper_loop (page_size : Z) (page : list A) (items : list A) : list (list A) :=
    match items with
    | [] => [page]                                                  (* 516: final yield *)
    | x :: items' =>
        let page' := page ++ [x] in                                 (* 512 *)
        if Z.eqb (Z.of_nat (length page')) page_size                (* 513 *)
        then page' :: grouper_loop page_size [] items'              (* 514-515 *)
        else grouper_loop page_size page' items'
    end.
  Definition grouper (page_size : Z) (items : list A) : list (list A) := grouper_loop page_size [] items.
End Grouper.

(** * Bracket *)
(** [bracket in br] for strings: substring test *)
Fixpoint is_prefix (p s : list ascii) : bool :=
  match p, s with
  | [], _ => true
  | _ :: _, [] => false
  | a :: p', b :: s' => beq a b && is_prefix p' s'
  end.
Fixpoint contains_sub (p s : list ascii) : bool :=
  is_prefix p s || match s with [] => false | _ :: s' => contains_sub p s' end.

Definition brackets_table : list (ascii * ascii) := [("(", ")"); ("[", "]"); ("{", "}"); ("<", ">")]%char.

(** utils.py:558-565 [get_brackets] *)
Definition get_brackets (bracket : list ascii) : res (ascii * ascii) :=
  match find (fun p => contains_sub bracket [fst p; snd p]) brackets_table with
  | Some p => Ok p
  | None => Err InvalidValue
  end.

Section Scan.
  Context {A : Type} {EA : EqDec A}.
  Variables br cbr : A.

  (** utils.py:553-557 [__init__]: the assertion on the positions, then the position is stored *)
  Definition mk_bracket (context : list A) (pos : nat * nat) : res (nat * nat) :=
    match nth_error context (fst pos), nth_error context (snd pos) with
    | Some a, Some b =>
        if Nat.ltb (fst pos) (snd pos) && beq a br && beq b cbr then Ok pos else Err AssertionError
    | Some a, None => if Nat.ltb (fst pos) (snd pos) && beq a br then Err IndexError else Err AssertionError
    | None, _ => if Nat.ltb (fst pos) (snd pos) then Err IndexError else Err AssertionError
    end.

  (** utils.py:584-598 [find_brackets]; [o_brs] is the stack, top first; [i] the enumeration index. The list of
      found positions is the result (the Bracket objects add the context only). *)
  Fixpoint find_brackets_loop (context : list A) (i : nat) (o_brs : list nat) (found : list (nat * nat)) (s : list A)
    : res (list (nat * nat)) :=
    match s with
    | [] => Ok found
    | c :: s' =>
        let o1 := if beq c br then i :: o_brs else o_brs in         (* 590-591 *)
        if beq c cbr then                                            (* 592 *)
          match o1 with
          | [] => Err IndexError                                     (* 593 pop from empty list *)
          | o :: o2 => do b <- mk_bracket context (o, i); find_brackets_loop context (S i) o2 (found ++ [b]) s'
          end
        else find_brackets_loop context (S i) o1 found s'
    end.
  Definition find_brackets (context : list A) : res (list (nat * nat)) := find_brackets_loop context 0 [] [] context.

  (** utils.py:573-582 [find_closing_bracket] *)
  Fixpoint find_closing_loop (context : list A) (i : nat) (o_brs : list nat) (s : list A)
    : res (option ((nat * nat) * list A)) :=
    match s with
    | [] => Ok None
    | c :: s' =>
        let o1 := if beq c br then i :: o_brs else o_brs in
        if beq c cbr then
          match o1 with
          | [] => Err IndexError
          | [o] => Ok (Some ((o, i), firstn (i - (o + 1)) (skipn (o + 1) context)))
          | o :: o2 => find_closing_loop context (S i) o2 s'
          end
        else find_closing_loop context (S i) o1 s'
    end.
  Definition find_closing_bracket (context : list A) := find_closing_loop context 0 [] context.

  (** utils.py:567-568 [is_in] *)
  Definition is_in (self other : nat * nat) : bool := Nat.ltb (fst self) (fst other) && Nat.ltb (snd self) (snd other).
  (** utils.py:570-571 [content] *)
  Definition br_content (context : list A) (pos : nat * nat) : list A :=
    firstn (snd pos - (fst pos + 1)) (skipn (fst pos + 1) context).
End Scan.
