(* The complex numbers over Coq's real numbers, as the number type of FtModel.  This
   is mathematics, not a model of the repository: floating point rounding is not
   modelled. *)
From Verif Require Export FtModel.
From Coq Require Import Reals Qreals.
Local Open Scope R_scope.

Definition complex_reals : complex_ops := {|
  cnum := R * R;
  czero := (0, 0);
  cadd := fun a b => (fst a + fst b, snd a + snd b);
  cmul := fun a b => (fst a * fst b - snd a * snd b, fst a * snd b + snd a * fst b);
  cexp := fun q => (cos (2 * PI * Q2R (this q)), sin (2 * PI * Q2R (this q)));
  cscale := fun n a => (INR n * fst a, INR n * snd a);
  cdiv := fun a n => (fst a / INR n, snd a / INR n)
|}.
