(* Vocabulary for assigning to a stack of arrays: when the code knows where the values of the lists go. *)
From Coq Require Import String.
From Verif Require Export IndexingSpec SetitemModel.
Local Open Scope nat_scope.

(* entries that take part in indexing with lists: integers and lists *)
Definition picks (i : ind) : bool := match i with Num _ | NumB _ | Ints _ | Bools _ => true | _ => false end.
Definition picks_at (l : list ind) (k : nat) : Prop := exists i, nth_error l k = Some i /\ picks i = true.
(* the integers and lists are next to each other *)
Definition together (l : list ind) : Prop := forall a b c, a <= b <= c -> picks_at l a -> picks_at l c -> picks_at l b.
(* No list, or a list for the stacking axis, or integers and lists next to each other, or an integer or list in front that is not for the
   stacking axis. *)
Definition placed (l : list ind) (ax : nat) : Prop :=
  (forall i, In i l -> selected i = None) \/ (exists i, nth_error l ax = Some i /\ selected i <> None) \/ together l \/ (ax <> 0 /\ picks_at l 0).
(* a value as numpy sees it *)
Definition as_array {V} (v : value V) : arr V := match v with Array a => a | Scalar x => {| shp := []; elt := fun _ => x |} end.
(* the entry for the stacking axis selects each array at most once *)
Definition once (l : list ind) (ax n : nat) : Prop := forall i r, nth_error l ax = Some i -> resolve n i = Ok r -> NoDup (positions r).
(* the operation of a method *)
Inductive does {V} (vadd vsub vmul vdiv vand vor : V -> V -> V) : chars -> (V -> V -> V) -> Prop :=
| Do_set : does vadd vsub vmul vdiv vand vor (txt "set") (fun _ x => x)
| Do_add : does vadd vsub vmul vdiv vand vor (txt "add") vadd
| Do_sub : does vadd vsub vmul vdiv vand vor (txt "sub") vsub
| Do_mul : does vadd vsub vmul vdiv vand vor (txt "mul") vmul
| Do_div : does vadd vsub vmul vdiv vand vor (txt "div") vdiv
| Do_and : does vadd vsub vmul vdiv vand vor (txt "and") vand
| Do_or : does vadd vsub vmul vdiv vand vor (txt "or") vor.

(* examples: arrays that hold their place and coordinates as digits, and a value that holds its coordinates *)
Definition ex_st (s : list nat) (a : nat) : arr nat := {| shp := s; elt := fun o => fold_left (fun n k => 10 * n + k) o a |}.
Definition ex_val (s : list nat) : value nat := Array {| shp := s; elt := fun o => 500 + fold_left (fun n k => 10 * n + k) o 0 |}.
Definition contents (a : arr nat) : list nat := map (elt a) (coords (shp a)).
Definition assigned (g : nat -> nat -> nat) (st : nat -> arr nat) (args : list nat) (ax : nat) (i : list ind) (v : value nat) : result (list nat) :=
  let! full := np_stack (map st args) ax in let! r := np_putitem g full (Tup i) (as_array v) in Ok (contents r).
Definition set_by_code (st : nat -> arr nat) (args : list nat) (ax : nat) (i : list ind) (v : value nat) (method : chars) : result (list nat) :=
  let! full := np_stack (map st args) ax in
  let! st' := setitem Nat.add Nat.sub Nat.mul Nat.div Nat.land Nat.lor st args (Tup i) (length (shp full)) v method (Some (shp full)) (Z.of_nat ax) in
  let! r := np_stack (map st' args) ax in Ok (contents r).
