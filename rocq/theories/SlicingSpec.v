(* Vocabulary for block-wise processing *)
From Verif Require Export SlicingModel.
From Coq Require Import QArith.
Local Open Scope nat_scope.

(* an index tuple belongs to a block *)
Definition in_choice (k : nat) (c : choice) : Prop := match c with Whole => True | At j => k = j end.
Definition in_block (o : list nat) (b : list choice) : Prop := Forall2 in_choice o b.
(* the numbers in a block, left to right *)
Definition numbers (b : list choice) : list nat :=
  flat_map (fun c => match c with Whole => [] | At k => [k] end) b.
(* lexicographic order *)
Inductive lex : list nat -> list nat -> Prop :=
| lex_head x y l m : x < y -> length l = length m -> lex (x :: l) (y :: m)
| lex_tail x l m : lex l m -> lex (x :: l) (x :: m).
(* number of elements in a block of an array *)
Fixpoint block_size (shape : list nat) (b : list choice) : nat :=
  match shape, b with
  | n :: shape', Whole :: b' => n * block_size shape' b'
  | _ :: shape', At _ :: b' => block_size shape' b'
  | _, _ => 1
  end.
