(* Vocabulary for stacks of images: the coordinates of a pixel and the shape of a stack along dimension 0, 1 or 2. *)
From Verif Require Export StackioModel.
Local Open Scope nat_scope.

(* pixel (y, x) of image i; also the shape of a stack of i images with y rows and x columns *)
Definition at_image (d i y x : nat) : list nat :=
  match d with 0 => [i; y; x] | 1 => [y; i; x] | _ => [y; x; i] end.
(* the stack dimension that the caller means *)
Definition asked (stackdim : option Z) (d : nat) : Prop := d < 3 /\ (stackdim = Some (Z.of_nat d) \/ stackdim = None /\ d = 2).
