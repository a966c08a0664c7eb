(* Model of src/spectrocrunch/utils/cache.py *)
From Verif Require Import Base.

(* ---- LimitedSizeDict, utils/cache.py:6-19 ---- *)
Section Limited.
Context {K V : Type} (eqb : K -> K -> bool).

(* utils/cache.py:16-19 _check_size_limit.  popitem(last=False) drops the oldest
   item and raises KeyError on an empty dictionary (negative limit).  The content
   left behind when it raises (nothing) is not kept. *)
Fixpoint check_size_limit (limit : option Z) (d : list (K * V)) : result (list (K * V)) :=
  match limit with
  | None => Ok d
  | Some n =>
      match d with
      | [] => if 0 >? n then Err KeyError else Ok []
      | kv :: d' => if Z.of_nat (length (kv :: d')) >? n
                    then check_size_limit limit d' else Ok (kv :: d')
      end
  end.

(* utils/cache.py:12-14 __setitem__ *)
Definition setitem (limit : option Z) (d : list (K * V)) (kv : K * V) : result (list (K * V)) :=
  check_size_limit limit (assign eqb (fst kv) (snd kv) d).

(* A sequence of assignments; __init__ (utils/cache.py:7-10) assigns its
   arguments one by one (OrderedDict.update calls __setitem__) and then checks
   the limit, so it is the same as assigning them to an empty dictionary. *)
Fixpoint setitems (limit : option Z) (d : list (K * V)) (ops : list (K * V)) : result (list (K * V)) :=
  match ops with
  | [] => Ok d
  | op :: ops' => let! d1 := setitem limit d op in setitems limit d1 ops'
  end.

Definition limited_init (limit : option Z) (items : list (K * V)) : result (list (K * V)) :=
  let! d := setitems limit [] items in check_size_limit limit d.
End Limited.

(* ---- Cache, utils/cache.py:22-79 ---- *)
Section Cache.
Context {K V : Type} (eqb : K -> K -> bool).

(* What a caller does with one Cache object: read a subject (getcache), raise an
   exception of its own, do things in sequence, open a caching context. *)
Inductive prog : Type :=
| Skip
| Get (s : K)
| Raise (e : exn)
| Seq (p q : prog)
| Ctx (s : K) (body : prog).

(* Observable events: the generator of a subject ran and produced a value; a
   read returned a value. *)
Inductive event : Type :=
| Gen (s : K) (v : V)
| Read (s : K) (v : V).

Record cstate : Type := { store : list (K * V); ncalls : nat; events : list event }.

(* The object: which subjects have a "_cache_<subject>" method, what the n-th
   generator call returns or raises (generators may return something different
   each time), and the force flag.  Simplification: a generator does not itself
   open caching contexts; arguments of the generator are part of the oracle. *)
Context (has_gen : K -> bool) (gen : nat -> K -> result V) (force : bool).

(* utils/cache.py:35-39 _generate_cache *)
Definition generate (s : K) (st : cstate) : result V * cstate :=
  if has_gen s then
    match gen (ncalls st) s with
    | Ok v => (Ok v, {| store := store st; ncalls := S (ncalls st);
                        events := events st ++ [Gen s v] |})
    | Err e => (Err e, {| store := store st; ncalls := S (ncalls st); events := events st |})
    end
  else (Err RuntimeError, st).

(* utils/cache.py:59-79 getcache *)
Definition getcache (s : K) (st : cstate) : result V * cstate :=
  match lookup eqb s (store st) with
  | Some v => (Ok v, st)
  | None =>
      if force then (Err (if has_gen s then RuntimeError else AttributeError), st)
      else generate s st
  end.

(* utils/cache.py:41-57 cachectx around a body.  There is no try/finally: when
   the body raises, the code after "yield" does not run. *)
Fixpoint exec (p : prog) (st : cstate) : result unit * cstate :=
  match p with
  | Skip => (Ok tt, st)
  | Get s =>
      match getcache s st with
      | (Ok v, st1) => (Ok tt, {| store := store st1; ncalls := ncalls st1;
                                  events := events st1 ++ [Read s v] |})
      | (Err e, st1) => (Err e, st1)
      end
  | Raise e => (Err e, st)
  | Seq p q =>
      match exec p st with
      | (Ok _, st1) => exec q st1
      | (Err e, st1) => (Err e, st1)
      end
  | Ctx s body =>
      if mem eqb s (store st) then exec body st
      else
        match generate s st with
        | (Err e, st1) => (Err e, st1)
        | (Ok v, st1) =>
            let st2 := {| store := assign eqb s v (store st1); ncalls := ncalls st1;
                          events := events st1 |} in
            match exec body st2 with
            | (Ok _, st3) => (Ok tt, {| store := remove_key eqb s (store st3);
                                        ncalls := ncalls st3; events := events st3 |})
            | (Err e, st3) => (Err e, st3)
            end
        end
  end.
End Cache.
Arguments Skip {K}.
Arguments Raise {K} e.
Arguments Gen {K V} s v.
Arguments Read {K V} s v.
