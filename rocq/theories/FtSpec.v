(* Vocabulary for frequency axes *)
From Verif Require Export FtModel.

(* The position, in the order 0, 1, ..., -2, -1 used by the transforms, of the
   frequency that is at position i when frequencies are in increasing order; lowest
   is the lowest frequency. *)
Definition unshifted (lowest : Z) (n i : nat) : nat := Z.to_nat ((Z.of_nat i + lowest) mod Z.of_nat n).
Definition unshifted_dims (lowest : Z -> Z) (dims o : list nat) : list nat :=
  map (fun p => unshifted (lowest (Z.of_nat (fst p))) (fst p) (snd p)) (combine dims o).

(* lowest and highest frequency index of n points: as many on both sides of zero, the
   one too many for even n goes to the negative (numpy) or positive (IDL) side *)
Definition lowest (c : convention) (n : Z) : Z := match c with Numpy => - (n / 2) | Idl => - ((n - 1) / 2) end.

(* the last position of n points starting at position 0, unless another one is asked for *)
Definition last_x (n : nat) (x1 : option Z) : Z := match x1 with Some x1 => x1 | None => Z.of_nat n - 1 end.
(* a f + b g, point by point *)
Definition combination (K : complex_ops) (a : cnum K) (f : list (cnum K)) (b : cnum K) (g : list (cnum K)) : list (cnum K) :=
  map (fun p => cadd K (cmul K a (fst p)) (cmul K b (snd p))) (combine f g).
