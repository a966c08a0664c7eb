(* Vocabulary for the statements about utils/listtools.py. *)
From Verif Require Import Base ListToolsModel.

(* The leaf reached by following child positions [p] from the root. *)
Fixpoint leaf_at {A} (t : tree A) (p : list nat) : option A :=
  match t, p with
  | Leaf a, [] => Some a
  | Node l, i :: p' => match nth_error l i with Some c => leaf_at c p' | None => None end
  | _, _ => None
  end.

(* Lexicographic (reading) order on positions. *)
Fixpoint path_lt (p q : list nat) : Prop :=
  match p, q with
  | i :: p', j :: q' => (i < j)%nat \/ (i = j /\ path_lt p' q')
  | [], _ :: _ => True
  | _, _ => False
  end.

(* First position of x in l, counted from 0. *)
Fixpoint first_index {A} (eqb : A -> A -> bool) (x : A) (l : list A) : option nat :=
  match l with
  | [] => None
  | y :: l' => if eqb x y then Some O else option_map S (first_index eqb x l')
  end.

Definition earlier {A} (eqb : A -> A -> bool) (l : list A) (x y : A) : Prop :=
  exists i j, first_index eqb x l = Some i /\ first_index eqb y l = Some j /\ (i < j)%nat.

(* All values paired with key x, in order. *)
Definition values_of {A B} (eqb : A -> A -> bool) (x : A) (l : list (A * B)) : list B :=
  map snd (filter (fun p => eqb x (fst p)) l).

(* "ks lists every key of l once, in order of first appearance" *)
Definition distinct_in_order {A} (eqb : A -> A -> bool) (ks l : list A) : Prop :=
  NoDup ks /\ (forall x, In x ks <-> In x l) /\ StronglySorted (earlier eqb l) ks.
