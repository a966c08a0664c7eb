(* Vocabulary for fits *)
From Verif Require Export FitModel.
Local Open Scope Qc_scope.

(* sum of the squared residuals of the line y = m x + b *)
Definition ssr (x y : list Qc) (m b : Qc) : Qc :=
  qsum (map (fun p => (snd p - (m * fst p + b)) * (snd p - (m * fst p + b))) (combine x y)).

(* two of the numbers differ *)
Definition varied (x : list Qc) : Prop := exists a b, In a x /\ In b x /\ a <> b.

Definition unit_entries (i j : nat) : Qc := if (i =? j)%nat then 1 else 0.
(* M b is the least squares estimate of the solution of A x = b: the normal equations
   transpose(A) A M = transpose(A); and M A = 1 *)
Definition estimator (M A : arr Qc) : Prop :=
  shp M = [cols A; rows A] /\
  (forall i j, (i < cols A)%nat -> (j < rows A)%nat ->
    qsumn (cols A) (fun k => qsumn (rows A) (fun l => entries A l i * entries A l k) * entries M k j) = entries A j i) /\
  forall i j, (i < cols A)%nat -> (j < cols A)%nat ->
    qsumn (rows A) (fun k => entries M i k * entries A k j) = unit_entries i j.
(* the covariances of the errors *)
Definition covariance (e : noise) (i j : nat) : Qc :=
  match e with Vare v => if (i =? j)%nat then nth i v 0 else 0 | Cove c => entries c i j end.
(* C = M V transpose(M) *)
Definition propagated (M : arr Qc) (e : noise) (C : arr Qc) : Prop :=
  shp C = [rows M; rows M] /\
  forall i j, (i < rows M)%nat -> (j < rows M)%nat ->
    entries C i j = qsumn (cols M) (fun k => qsumn (cols M) (fun l => entries M i k * covariance e k l * entries M j l)).
(* some combination of the columns, not all coefficients zero, is zero *)
Definition dependent_columns (A : arr Qc) : Prop :=
  exists x : nat -> Qc, (exists k, (k < cols A)%nat /\ x k <> 0) /\
    forall i, (i < rows A)%nat -> qsumn (cols A) (fun k => entries A i k * x k) = 0.

(* leaving out the points with a nan *)
Inductive without_nan : list (option Qc) -> list (option Qc) -> list Qc -> list Qc -> Prop :=
| wn_nil : without_nan [] [] [] []
| wn_keep a b x y x' y' : without_nan x y x' y' -> without_nan (Some a :: x) (Some b :: y) (a :: x') (b :: y')
| wn_x o x y x' y' : without_nan x y x' y' -> without_nan (None :: x) (o :: y) x' y'
| wn_y o x y x' y' : without_nan x y x' y' -> without_nan (o :: x) (None :: y) x' y'.

(* one variance, or one row and column of covariances, for each of the m equations *)
Definition noise_shape (m : nat) (e : noise) : Prop := match e with Vare v => length v = m | Cove c => shp c = [m; m] end.
Definition no_zero_variance (e : noise) : Prop := match e with Vare v => ~ In 0 v | Cove _ => True end.
