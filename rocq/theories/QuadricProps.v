(* C81: quadric matrices vanish exactly on the surface they stand for, also in another frame.
   C82: constrained least squares as a quadratic program. *)
From Verif Require Import QuadricModel QuadricSpec QuadricProofs LsqProofs.
Local Open Scope Qc_scope.
Local Notation q a b := (Q2Qc (a # b)).

(* ---- C81 ---- *)
Theorem C81_plane : forall x0 u y, length u = length x0 -> length y = length x0 ->
  exists A, plane x0 u = Ok A /\ square_of (S (length x0)) A /\ symmetric (S (length x0)) A /\ at_point A y = distance x0 u y.
Proof. exact plane_spec. Qed.
Print Assumptions C81_plane.
Theorem C81_ellipsoid : forall x0 a y, length a = length x0 -> ~ In 0 a -> length y = length x0 ->
  exists A, ellipsoid x0 a = Ok A /\ square_of (S (length x0)) A /\ symmetric (S (length x0)) A /\ at_point A y = spread x0 a y - 1.
Proof. exact ellipsoid_spec. Qed.
Print Assumptions C81_ellipsoid.
(* one semi-axis for all directions *)
Theorem C81_sphere : forall x0 s y, s <> 0 -> length y = length x0 ->
  exists A, ellipsoid x0 [s] = Ok A /\ square_of (S (length x0)) A /\ at_point A y = spread x0 (List.repeat s (length x0)) y - 1.
Proof. exact sphere_spec. Qed.
Print Assumptions C81_sphere.
(* the coordinate along the axis does not matter; the axis may be counted from the end *)
Theorem C81_cylinder : forall x0 a y axis k, length a = length x0 -> ~ In 0 a -> length y = S (length x0) -> (k <= length x0)%nat ->
  axis = Z.of_nat k \/ axis = (Z.of_nat k - Z.of_nat (length y))%Z ->
  exists A, cylinder x0 a axis = Ok A /\ square_of (S (length y)) A /\ symmetric (S (length y)) A /\ at_point A y = spread x0 a (firstn k y ++ skipn (S k) y) - 1.
Proof. exact cylinder_spec. Qed.
Print Assumptions C81_cylinder.
Example C81_case : exists A B, ellipsoid [q 1 1; q 2 1] [q 3 1; q 1 2] = Ok A /\ Qc_eqb (at_point A [q 4 1; q 2 1]) 0 = true /\ Qc_eqb (at_point A [q 1 1; q 2 1]) (- (1)) = true
  /\ cylinder [q 1 1; q 2 1] [q 3 1; q 1 2] (-2) = Ok B /\ Qc_eqb (at_point B [q 4 1; q 77 1; q 2 1]) 0 = true.
Proof. eexists _, _. split; [reflexivity|]. split; [vm_compute; reflexivity|]. split; [vm_compute; reflexivity|]. split; [reflexivity|vm_compute; reflexivity]. Qed.
(* documented as a point on the axis, x0 has one coordinate less: with a point of the space the surface is in a space with one dimension more *)
Theorem C81_point_refuted : forall x0 a axis A, cylinder x0 a axis = Ok A -> square_of (S (S (length x0))) A.
Proof. exact cylinder_point. Qed.
Print Assumptions C81_point_refuted.
Theorem C81_errors : (forall x0 u, length u <> length x0 -> plane x0 u = Err ValueError)
  /\ (forall x0 a, length a <> length x0 -> length a <> 1%nat -> ellipsoid x0 a = Err ValueError)
  /\ (forall x0 a, length a = length x0 -> In 0 a -> ellipsoid x0 a = Err ZeroDivisionError)
  /\ (forall x0 a axis, (axis < - Z.of_nat (S (length x0)) \/ Z.of_nat (S (length x0)) <= axis)%Z -> cylinder x0 a axis = Err IndexError).
Proof. exact quadric_errors. Qed.
Print Assumptions C81_errors.
(* x^T.A.x = x'^T.A'.x' for x = C.x' *)
Theorem C81_frame : forall A C m n, shp A = [m; m] -> shp C = [m; n] -> exists B, change_of_frame A C = Ok B /\ square_of n B
  /\ (forall v, form n (entries B) v = form m (entries A) (applied n C v)) /\ (symmetric m A -> symmetric n B).
Proof. exact frame_spec. Qed.
Print Assumptions C81_frame.
Theorem C81_compose : forall A C D m n k, shp A = [m; m] -> shp C = [m; n] -> shp D = [n; k] ->
  exists B CD X Y, change_of_frame A C = Ok B /\ dot C D = Ok CD /\ change_of_frame B D = Ok X /\ change_of_frame A CD = Ok Y /\ shp X = shp Y /\ forall i j, entries X i j = entries Y i j.
Proof. exact frame_compose. Qed.
Print Assumptions C81_compose.

(* ---- C82 ---- *)
(* what is minimised differs from the loss by a factor and a constant, and the feasible points are the admissible ones *)
Theorem C82_program_partial : forall C m n d reg A b Aeq beq lb ub, shp C = [m; n] -> length d = m -> 0 <= reg -> matching n A b -> (forall v, b <> Some [v]) -> matching n Aeq beq -> bounding n lb -> bounding n ub ->
  exists p, lsqlin (Dense C) d reg (option_map Dense A) b (option_map Dense Aeq) beq lb ub = Ok p
  /\ (forall x, loss C d reg x = Q2Qc (2#1) * qp_value p x + norm2 m (fun i => nth i d 0))
  /\ (forall x, qp_feasible p x <-> admissible n A b Aeq beq lb ub x).
Proof. exact lsqlin_dense. Qed.
Print Assumptions C82_program_partial.
Example C82_case : let C := mat 2 2 (fun i j => Qc_of_Z (Z.of_nat (i + 2 * j + 1))) in let A := mat 2 2 (fun i j => if (i =? j)%nat then 1 else q 1 2) in
  shp C = [2%nat; 2%nat] /\ matching 2 (Some A) (Some [q 1 1; q 3 1]) /\ (forall v, Some [q 1 1; q 3 1] <> Some [v]) /\ bounding 2 (Some [0]) /\ bounding 2 (Some [1; q 5 1])
  /\ exists p, lsqlin (Dense C) [q 1 1; q 2 1] (q 1 3) (Some (Dense A)) (Some [q 1 1; q 3 1]) None None (Some [0]) (Some [1; q 5 1]) = Ok p /\ rows (qp_G p) = 6%nat /\ length (qp_h p) = 6%nat.
Proof. cbv zeta. split; [reflexivity|]. split; [split; reflexivity|]. split; [discriminate|]. split; [right; reflexivity|]. split; [left; reflexivity|]. eexists. split; [reflexivity|]. split; reflexivity. Qed.
Theorem C82_solution_partial : forall C m n d reg A b Aeq beq lb ub, shp C = [m; n] -> length d = m -> 0 <= reg -> matching n A b -> (forall v, b <> Some [v]) -> matching n Aeq beq -> bounding n lb -> bounding n ub ->
  exists p, lsqlin (Dense C) d reg (option_map Dense A) b (option_map Dense Aeq) beq lb ub = Ok p
  /\ forall x, least (qp_feasible p) (qp_value p) x <-> least (admissible n A b Aeq beq lb ub) (loss C d reg) x.
Proof. exact lsqlin_solution. Qed.
Print Assumptions C82_solution_partial.
Theorem C82_nonneg : forall C m n d, shp C = [m; n] -> length d = m -> exists p, lsqnonneg (Dense C) d = Ok p
  /\ forall x, least (qp_feasible p) (qp_value p) x <-> least (fun x => forall i, (i < n)%nat -> 0 <= x i) (loss C d 0) x.
Proof. exact nonneg_spec. Qed.
Print Assumptions C82_nonneg.
Theorem C82_norm : forall C m n d, shp C = [m; n] -> length d = m -> exists p, lsqnorm (Dense C) d = Ok p
  /\ forall x, least (qp_feasible p) (qp_value p) x <-> least (fun x => (forall i, (i < n)%nat -> 0 <= x i /\ x i <= 1) /\ qsumn n x = 1) (loss C d 0) x.
Proof. exact norm_spec. Qed.
Print Assumptions C82_norm.
(* a single inequality is refused: squeeze makes a number of its right-hand side *)
Theorem C82_single_refuted : forall C m n d reg A v Aeq beq lb ub, shp C = [m; n] -> length d = m -> shp A = [1%nat; n] ->
  exists e, lsqlin (Dense C) d reg (Some (Dense A)) (Some [v]) Aeq beq lb ub = Err e /\ e = match lb, ub with None, None => TypeError | _, _ => ValueError end.
Proof. exact single_inequality. Qed.
Print Assumptions C82_single_refuted.
(* a sparse matrix is its dense counterpart if its last row and column have an entry *)
Theorem C82_sparse : forall m n l d reg A b Aeq beq lb ub, top (map (fun e => fst (fst e)) l) = m -> top (map (fun e => snd (fst e)) l) = n ->
  lsqlin (Sparse m n l) d reg A b Aeq beq lb ub = lsqlin (Dense (mat m n (entry_of l))) d reg A b Aeq beq lb ub.
Proof. exact sparse_ok. Qed.
Print Assumptions C82_sparse.
(* the dense counterpart has the entries, and zero elsewhere *)
Theorem C82_sparse_entry : forall l i j, NoDup (map fst l) -> (forall v, In (i, j, v) l -> entry_of l i j = v) /\ ((forall v, ~ In (i, j, v) l) -> entry_of l i j = 0).
Proof. exact sparse_entry. Qed.
Print Assumptions C82_sparse_entry.
(* variables whose columns are zero at the end are lost, equations whose rows are zero at the end are refused *)
Theorem C82_column_refuted : forall m n l d, top (map (fun e => fst (fst e)) l) = m -> (top (map (fun e => snd (fst e)) l) < n)%nat -> length d = m ->
  exists p, lsqnonneg (Sparse m n l) d = Ok p /\ (length (qp_q p) < n)%nat.
Proof. exact sparse_column. Qed.
Print Assumptions C82_column_refuted.
Theorem C82_row_refuted : forall m n l d, (top (map (fun e => fst (fst e)) l) < m)%nat -> length d = m ->
  forall reg A b Aeq beq lb ub, lsqlin (Sparse m n l) d reg A b Aeq beq lb ub = Err TypeError.
Proof. exact sparse_row. Qed.
Print Assumptions C82_row_refuted.
