(* What the statements about alignSimple.py refer to. *)
From Verif Require Import CenterModel AlignsimpleModel.
Local Open Scope Qc_scope.
(* pixel (i, j) exists and holds v, which does not mark a missing pixel *)
Definition holds (cval : fill) (d : image) (i j : nat) (v : Qc) : Prop :=
  (i < ny d)%nat /\ (j < nx d)%nat /\ pix d i j = Some v /\ (forall q, cval = Number q -> q <> 0 -> v <> q).
Definition earlier (i j y x : nat) : Prop := (i < y)%nat \/ (i = y /\ (j < x)%nat).
(* the greatest pixel, the first one row by row *)
Definition peak (cval : fill) (d : image) (y x : nat) (m : Qc) : Prop :=
  holds cval d y x m /\ (forall i j v, holds cval d i j v -> v <= m) /\ (forall i j v, holds cval d i j v -> earlier i j y x -> v < m).
Definition valley (cval : fill) (d : image) (y x : nat) (m : Qc) : Prop :=
  holds cval d y x m /\ (forall i j v, holds cval d i j v -> m <= v) /\ (forall i j v, holds cval d i j v -> earlier i j y x -> m < v).
(* nan can be written: not an array of integers in which a number marks missing pixels *)
Definition writable (cval : fill) (p : picture) : Prop :=
  integers p = false \/ forall q i j, cval = Number q -> q <> 0 -> (i < ny (img p))%nat -> (j < nx (img p))%nat -> pix (img p) i j <> Some q.
(* the pixels of d are found in d' sy rows and sx columns further *)
Definition displaced (d d' : image) (sy sx : Z) : Prop :=
  forall i j i' j', (i < ny d)%nat -> (j < nx d)%nat -> (i' < ny d')%nat -> (j' < nx d')%nat ->
    (Z.of_nat i' = Z.of_nat i + sy)%Z -> (Z.of_nat j' = Z.of_nat j + sx)%Z -> pix d' i' j' = pix d i j.
(* pixel (i', j') of d' does not come from d *)
Definition fresh (d d' : image) (sy sx : Z) (i' j' : nat) : Prop :=
  ~ exists i j, (i < ny d)%nat /\ (j < nx d)%nat /\ (Z.of_nat i' = Z.of_nat i + sy)%Z /\ (Z.of_nat j' = Z.of_nat j + sx)%Z.
(* z holds the pixels, zero where they are missing *)
Definition zeroed (cval : fill) (p : picture) (z : nat -> nat -> Qc) : Prop :=
  forall i j, (i < ny (img p))%nat -> (j < nx (img p))%nat ->
    (cval = NpNan /\ pix (img p) i j = None /\ z i j = 0) \/
    (exists q, cval = Number q /\ pix (img p) i j = Some q /\ z i j = 0) \/
    (pix (img p) i j = Some (z i j) /\ cval <> Number (z i j)).
(* the first of the greatest values of z on h rows and w columns *)
Definition summit (h w : nat) (z : nat -> nat -> Qc) (y x : nat) : Prop :=
  (y < h)%nat /\ (x < w)%nat /\
  forall i j, (i < h)%nat -> (j < w)%nat -> z i j <= z y x /\ (earlier i j y x -> z i j < z y x).
