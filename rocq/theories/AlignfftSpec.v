(* What the statements about alignFFT.py refer to. *)
From Verif Require Import AlignfftModel.
From Coq Require Import Reals.
Local Open Scope R_scope.

(* the sum of f 0, ..., f (n - 1) *)
Definition total (n : nat) (f : nat -> R) : R := fold_right Rplus 0 (map f (seq 0 n)).
(* the values g 0, ..., g (n - 1) contain the frequency k: the Fourier coefficient is not zero *)
Definition contains (n : nat) (g : nat -> R) (k : Z) : Prop :=
  total n (fun j => g j * cos (2 * PI * (IZR k * INR j / INR n))) <> 0 \/
  total n (fun j => g j * sin (2 * PI * (IZR k * INR j / INR n))) <> 0.
(* two neighbouring frequencies are contained: only a whole number of periods maps the values onto themselves, also
   after interpolation *)
Definition textured (n : nat) (g : nat -> R) : Prop :=
  exists k, (- (Z.of_nat n / 2) <= k)%Z /\ (k + 1 <= (Z.of_nat n - 1) / 2)%Z /\ contains n g k /\ contains n g (k + 1).

Definition total2 (r c : nat) (f : nat -> nat -> R) : R := total r (fun i => total c (f i)).
Definition contains2 (r c : nat) (g : nat -> nat -> R) (k l : Z) : Prop :=
  total2 r c (fun i j => g i j * cos (2 * PI * (IZR k * INR i / INR r + IZR l * INR j / INR c))) <> 0 \/
  total2 r c (fun i j => g i j * sin (2 * PI * (IZR k * INR i / INR r + IZR l * INR j / INR c))) <> 0.
Definition centred (n : nat) (k : Z) : Prop := (- (Z.of_nat n / 2) <= k <= (Z.of_nat n - 1) / 2)%Z.
(* neighbouring frequencies are contained in both directions *)
Definition textured2 (r c : nat) (g : nat -> nat -> R) : Prop :=
  (exists k l, centred r k /\ centred r (k + 1) /\ centred c l /\ contains2 r c g k l /\ contains2 r c g (k + 1) l) /\
  (exists k l, centred r k /\ centred c l /\ centred c (l + 1) /\ contains2 r c g k l /\ contains2 r c g k (l + 1)).

(* g holds the pixels of an image, with zero where a pixel is missing *)
Definition pixels (cval : filler) (im : image) (g : nat -> nat -> R) : Prop :=
  forall i j, (i < height im)%nat -> (j < width im)%nat ->
    (cval = NotANumber /\ pixel im i j = None /\ g i j = 0) \/
    (exists v, cval = Value v /\ pixel im i j = Some v /\ g i j = 0) \/
    (pixel im i j = Some (g i j) /\ cval <> Value (g i j)).
(* a single row or a single column of n pixels, with the values g *)
Definition line (cval : filler) (im : image) (row : bool) (n : nat) (g : nat -> R) : Prop :=
  if row then height im = 1%nat /\ width im = n /\ pixels cval im (fun _ j => g j)
  else height im = n /\ width im = 1%nat /\ pixels cval im (fun i _ => g i).
(* i - s, modulo n *)
Definition moved (n : nat) (s : Z) (i : nat) : nat := Z.to_nat ((Z.of_nat i - s) mod Z.of_nat n).
