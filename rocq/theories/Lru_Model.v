(** [functools.lru_cache(maxsize)] as used by the uri resolver and the namespace manager
    (resolvers/uri_resolver.py:44, managers/namespace_manager.py:37-38, 166): a table of at most [size] results, most
    recently used first; a call that raises is not recorded. *)
From Verif Require Export Base.

Section Lru.
  Context {K V : Type} {EK : EqDec K}.
  Variable size : nat.
  Definition lru_call (f : K -> res V) (k : K) (c : dict K V) : res V * dict K V :=
    match dget k c with
    | Some v => (Ok v, (k, v) :: ddel k c)
    | None => match f k with
              | Ok v => (Ok v, firstn size ((k, v) :: c))
              | Err e => (Err e, c)
              end
    end.
End Lru.
