(* Vocabulary for the statements about utils/cache.py. *)
From Verif Require Import Base CacheModel.

Definition lastn {A} (n : nat) (l : list A) : list A := skipn (length l - n) l.

(* The insertion history of a dictionary that remembers the last n insertions:
   assigning a remembered key is not an insertion, anything else is. *)
Definition history_step {K} (eqb : K -> K -> bool) (n : nat) (h : list K) (k : K) : list K :=
  if existsb (eqb k) (lastn n h) then h else h ++ [k].
Definition history {K} (eqb : K -> K -> bool) (n : nat) (ks : list K) : list K :=
  fold_left (history_step eqb n) ks [].

(* The value of the last assignment to k. *)
Definition last_assigned {K V} (eqb : K -> K -> bool) (k : K) (ops : list (K * V)) : option V :=
  lookup eqb k (rev ops).

Definition about {K V} (s : K) (e : @event K V) : Prop :=
  match e with Gen s' _ => s' = s | Read s' _ => s' = s end.
