(* Vocabulary for the statements about tiled arrays *)
From Verif Require Import TilearrayModel.
Local Open Scope nat_scope.

(* the place of element (i, j) of an array with strides s0 and s1 *)
Definition place (s0 s1 : Z) (i j : nat) : Z := (Z.of_nat i * s0 + Z.of_nat j * s1)%Z.
(* different elements of an n by c array have different places *)
Definition distinct_places (n c : nat) (s0 s1 : Z) : Prop :=
  forall i j i' j', i < n -> j < c -> i' < n -> j' < c -> place s0 s1 i j = place s0 s1 i' j' -> i = i' /\ j = j'.
