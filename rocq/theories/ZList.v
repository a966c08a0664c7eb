(* Lists addressed by integer positions. *)
From Verif Require Import Base.

(* The element at position i, counted from 0. *)
Definition point {A} (l : list A) (i : Z) : option A :=
  if i <? 0 then None else nth_error l (Z.to_nat i).
Definition plen {A} (l : list A) : Z := Z.of_nat (length l).
