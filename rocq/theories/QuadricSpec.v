(* Vocabulary for quadrics and for constrained least squares. *)
From Verif Require Export QuadricModel.
Local Open Scope Qc_scope.

(* ---- quadrics ---- *)
(* x^T.A.x *)
Definition form (n : nat) (A : nat -> nat -> Qc) (v : nat -> Qc) : Qc := qsumn n (fun i => qsumn n (fun j => v i * A i j * v j)).
Definition homogeneous (y : list Qc) : nat -> Qc := fun i => nth i (y ++ [1]) 0.
(* the left-hand side of the equation of the surface at the point y *)
Definition at_point (A : arr Qc) (y : list Qc) : Qc := form (S (length y)) (entries A) (homogeneous y).
Definition square_of (n : nat) (A : arr Qc) : Prop := shp A = [n; n].
Definition symmetric (n : nat) (A : arr Qc) : Prop := forall i j, (i < n)%nat -> (j < n)%nat -> entries A i j = entries A j i.
(* u.(y - x0) *)
Fixpoint distance (x0 u y : list Qc) : Qc :=
  match x0, u, y with x :: x0', v :: u', z :: y' => v * (z - x) + distance x0' u' y' | _, _, _ => 0 end.
(* sum_i (y_i - x_i)^2 / a_i^2 *)
Fixpoint spread (x0 a y : list Qc) : Qc :=
  match x0, a, y with x :: x0', s :: a', z :: y' => ((z - x) / s) * ((z - x) / s) + spread x0' a' y' | _, _, _ => 0 end.
Definition applied (n : nat) (C : arr Qc) (v : nat -> Qc) : nat -> Qc := fun i => qsumn n (fun j => entries C i j * v j).

(* ---- least squares ---- *)
Definition apply (C : arr Qc) (x : nat -> Qc) (i : nat) : Qc := qsumn (cols C) (fun j => entries C i j * x j).
Definition norm2 (n : nat) (f : nat -> Qc) : Qc := qsumn n (fun i => f i * f i).
(* ||C x - d||^2 + reg ||x||^2 *)
Definition loss (C : arr Qc) (d : list Qc) (reg : Qc) (x : nat -> Qc) : Qc :=
  norm2 (rows C) (fun i => apply C x i - nth i d 0) + reg * norm2 (cols C) x.
Definition at_most (A : arr Qc) (b : list Qc) (x : nat -> Qc) : Prop := forall i, (i < rows A)%nat -> apply A x i <= nth i b 0.
Definition equals (A : arr Qc) (b : list Qc) (x : nat -> Qc) : Prop := forall i, (i < rows A)%nat -> apply A x i = nth i b 0.
(* one bound for all variables, or one for each *)
Definition bound (l : list Qc) (i : nat) : Qc := match l with [v] => v | _ => nth i l 0 end.
Definition above (n : nat) (lb : option (list Qc)) (x : nat -> Qc) : Prop := match lb with None => True | Some l => forall i, (i < n)%nat -> bound l i <= x i end.
Definition under (n : nat) (ub : option (list Qc)) (x : nat -> Qc) : Prop := match ub with None => True | Some l => forall i, (i < n)%nat -> x i <= bound l i end.
Definition constraint (P : arr Qc -> list Qc -> (nat -> Qc) -> Prop) (A : option (arr Qc)) (b : option (list Qc)) (x : nat -> Qc) : Prop :=
  match A, b with Some A, Some b => P A b x | _, _ => True end.
Definition admissible (n : nat) (A : option (arr Qc)) (b : option (list Qc)) (Aeq : option (arr Qc)) (beq lb ub : option (list Qc)) (x : nat -> Qc) : Prop :=
  constraint at_most A b x /\ constraint equals Aeq beq x /\ above n lb x /\ under n ub x.
Definition least (S : (nat -> Qc) -> Prop) (f : (nat -> Qc) -> Qc) (x : nat -> Qc) : Prop := S x /\ forall y, S y -> f x <= f y.
(* what a quadratic program asks for *)
Definition qp_value (p : qp) (x : nat -> Qc) : Qc :=
  form (length (qp_q p)) (entries (qp_P p)) x / Q2Qc (2#1) + qsumn (length (qp_q p)) (fun i => nth i (qp_q p) 0 * x i).
Definition qp_feasible (p : qp) (x : nat -> Qc) : Prop := at_most (qp_G p) (qp_h p) x /\ equals (qp_A p) (qp_b p) x.
(* consistent sizes *)
Definition matching (n : nat) (A : option (arr Qc)) (b : option (list Qc)) : Prop :=
  match A, b with Some A, Some b => cols A = n /\ length b = rows A | None, None => True | _, _ => False end.
Definition bounding (n : nat) (l : option (list Qc)) : Prop := match l with None => True | Some l => length l = n \/ length l = 1%nat end.
