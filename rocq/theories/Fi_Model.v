(** ngoschema/models/files.py: FileInfo.get_contentSizeHuman 91-98, get_sha1 100-117.
    Sizes are below 2^53, so that the divisions by 1024.0 are exact: the number is kept as a fraction. *)
From Verif Require Export Base.
From Coq Require Import NArith DecimalString.
Local Open Scope list_scope.

(** "%.1f" of num/den: the nearest multiple of a tenth, the even one when two are as near *)
Definition tenths (num den : N) : N :=
  let q := (10 * num / den)%N in
  let r := (10 * num mod den)%N in
  match (2 * r ?= den)%N with
  | Lt => q
  | Gt => (q + 1)%N
  | Eq => if N.even q then q else (q + 1)%N
  end.
Definition decimalN (n : N) : string := NilEmpty.string_of_uint (N.to_uint n).
(** "%3.1f": one decimal has at least three characters already *)
Definition show_tenths (t : N) : string := (decimalN (t / 10) ++ "." ++ decimalN (t mod 10))%string.
(** 94 *)
Definition units : list string := ["bytes"; "KB"; "MB"; "GB"; "TB"]%string.
(** 93-98: the text, or the number itself as a fraction *)
Fixpoint human_from (us : list string) (num den : N) : string + (N * N) :=
  match us with
  | [] => inr (num, den)
  | u :: us' => if (num <? 1024 * den)%N then inl (show_tenths (tenths num den) ++ " " ++ u)%string else human_from us' num (den * 1024)
  end.
Definition human (size : N) : string + (N * N) := human_from units size 1.

Section Sha.
  (** a hash object: its state, update and hexdigest *)
  Variables state byte digest : Type.
  Variable init : state.
  Variable update : state -> list byte -> state.
  Variable hexdigest : state -> digest.
  (** [read sizes n data]: what is read and what is left. A file gives [n] bytes or all there is; a response may give fewer, [sizes] says
      how many it would give, and at least one when there is one *)
  Definition read (n : nat) (more : option nat) (data : list byte) : list byte * list byte :=
    let k := match more with None => n | Some m => Nat.min n (S m) end in (firstn k data, skipn k data).
  (** 106-109, 112-115: the loop, with the number of rounds as fuel *)
  Fixpoint sha_loop (fuel n : nat) (sizes : list nat) (st : state) (data : list byte) : res digest :=
    match fuel with
    | 0 => Err OutOfFuel
    | S fuel =>
        let (block, rest) := read n (hd_error sizes) data in
        match block with
        | [] => Ok (hexdigest st)
        | _ => sha_loop fuel n (tl sizes) (update st block) rest
        end
    end.
  (** without a path nor an address nothing is read *)
  Definition sha1 (fuel n : nat) (source : option (list nat * list byte)) : res digest :=
    match source with Some (sizes, data) => sha_loop fuel n sizes init data | None => Ok (hexdigest init) end.
End Sha.
Arguments sha1 {state byte digest} init update hexdigest fuel n source.
Arguments sha_loop {state byte digest} update hexdigest fuel n sizes st data.
Arguments read {byte} n more data.
