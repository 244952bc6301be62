(** The importable types, ngoschema/types/symbols.py:21-132. The interpreter is given by a record: what can be imported, the
    attributes of objects, their truth value. *)
From Verif Require Export Base Coll_Model Query_Model Ns_Model.
Local Open Scope char_scope. Local Open Scope list_scope.

(** values: None, a str, any other object *)
Inductive sval (O : Type) := SNone | SStr (s : str) | SObj (o : O).
Arguments SNone {O}. Arguments SStr {O} s. Arguments SObj {O} o.

Record world (O : Type) := {
  w_builtins : dict str (sval O);             (* importlib.__builtins__, 28 *)
  w_import : str -> option O;                 (* importlib.import_module; None when it raises *)
  w_attr : sval O -> str -> option (sval O);  (* getattr(ret, a, None); None when absent or raising *)
  w_truthy : O -> bool;
  w_hashable : O -> bool;
  w_is_module : O -> bool;
  w_name : O -> str;                          (* __name__ of a module *)
  w_module : O -> option str;                 (* getattr(value, '__module__', None) *)
  w_qualname : O -> option str                (* utils/_qualname.py:68-; None when it raises *)
}.
Arguments w_builtins {O}. Arguments w_import {O}. Arguments w_attr {O}. Arguments w_truthy {O}. Arguments w_hashable {O}.
Arguments w_is_module {O}. Arguments w_name {O}. Arguments w_module {O}. Arguments w_qualname {O}.

Section Symbol.
  Context {O : Type}.
  Variable w : world O.
  (** [check_symbol] of the type: 63-65 and its redefinitions 84-132 *)
  Variable test : sval O -> bool.

  Definition s_true (v : sval O) : bool := match v with SNone => false | SStr s => negb (beq s []) | SObj o => w_truthy w o end.
  (** 41-46. the attributes, empty names skipped; a falsy attribute raises *)
  Fixpoint follow (ret : sval O) (names : list str) : option (sval O) :=
    match names with
    | [] => Some ret
    | [] :: names' => follow ret names'
    | a :: names' => match w_attr w ret a with
                     | Some v => if s_true v then follow v names' else None
                     | None => None
                     end
    end.
  (** 36-50. the positions of the dots of [typed + '.'] backwards: the first [k] words are a module, the others attributes
      (simplification: words instead of positions); any exception goes on to the next one *)
  Fixpoint tries (words : list str) (k : nat) : option (sval O) :=
    match k with
    | 0 => None
    | S k' => match (match w_import w (ljoin ["."] (firstn k words)) with
                     | Some m => follow (SObj m) (skipn k words)
                     | None => None end) with
              | Some v => Some v
              | None => tries words k'
              end
    end.
  (** 31-56. [String.convert] leaves a plain string unchanged (expressions and templates are not modelled here) *)
  Definition sym_convert (value : sval O) : res (sval O) :=
    do typed <- match value with
                | SStr s => Ok (match dget s (w_builtins w) with Some v => v | None => value end)       (* 32 *)
                | SNone => Ok SNone
                | SObj o => if w_hashable w o then Ok value else Err TypeError                          (* 32: dict.get hashes it *)
                end;
    let typed := match typed with
                 | SStr s => let words := split_char "." s in
                             match tries words (length words) with Some v => v | None => typed end      (* 51-53: logged and kept *)
                 | _ => typed
                 end in
    match typed with
    | SNone => Ok SNone
    | _ => if test typed then Ok typed else Err ConversionError                                         (* 54-55 *)
    end.

  (** 67-77 on a value already converted (option deserialize=False) *)
  Definition sym_serialize (value : sval O) : res (sval O) :=
    match value with
    | SObj o =>
        if w_truthy w o then
          if w_is_module w o then Ok (SStr (w_name w o))
          else match w_qualname w o with
               | None => Err AttributeError
               | Some q => Ok (SStr (match w_module w o with Some (c :: m) => (c :: m) ++ "." :: q | _ => q end))
               end
        else Ok value
    | _ => Ok value
    end.
End Symbol.
