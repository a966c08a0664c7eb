(* Properties C23, C24, C58 and C59: fits, the linear solver, error propagation and the
   peak shape. *)
From Verif Require FtProofs.
From Verif Require Import FitModel FitSpec MatProofs FitProofs FitCovProofs PeakModel PeakSpec PeakProofs.
Local Open Scope Qc_scope.

(* C23: the fitted line has a smaller sum of squared residuals than every other line *)
Theorem C23_optimal x y m b : length x = length y -> linfit2 x y false = Ok (Some m, Some b) ->
  forall m' b', ssr x y m b <= ssr x y m' b' /\ (ssr x y m' b' <= ssr x y m b -> m' = m /\ b' = b).
Proof. exact (fit_optimal x y m b). Qed.
Print Assumptions C23_optimal.
Definition ex_x : list Qc := [0; 1; Qc_of_Z 2].
Definition ex_y : list Qc := [1; 0; Qc_of_Z 2].
Example C23_optimal_example : length ex_x = length ex_y /\ linfit2 ex_x ex_y false = Ok (Some (Q2Qc (1 # 2)), Some (Q2Qc (1 # 2))).
Proof. split; [reflexivity|]. apply ok_pair_eq. vm_compute. reflexivity. Qed.

(* there is a fitted line exactly when two of the positions differ *)
Theorem C23_defined x y : length x = length y ->
  (varied x -> exists m b, linfit2 x y false = Ok (Some m, Some b)) /\
  (~ varied x -> linfit2 x y false = Ok (None, None)).
Proof. exact (fit_defined x y). Qed.
Print Assumptions C23_defined.
Example C23_defined_example : varied ex_x /\ ~ varied [1; 1].
Proof.
  split; [exists 0, 1; split; [now left|split; [right; now left|discriminate]]|].
  intros (a & b & [<-|[<-|[]]] & [<-|[<-|[]]] & H); now apply H.
Qed.

Theorem C23_line x y m b : length x = length y -> varied x -> (forall p, In p (combine x y) -> snd p = m * fst p + b) ->
  linfit2 x y false = Ok (Some m, Some b).
Proof. exact (fit_line x y m b). Qed.
Print Assumptions C23_line.
Example C23_line_example : forall p, In p (combine ex_x [1; Qc_of_Z 3; Qc_of_Z 5]) -> snd p = Qc_of_Z 2 * fst p + 1.
Proof. intros p [<-|[<-|[<-|[]]]]; apply Qc_is_canon; reflexivity. Qed.

(* through the origin *)
Theorem C23_origin_optimal x y m : length x = length y -> linfit_zerointercept2 x y = Ok (Some m) ->
  forall m', ssr x y m 0 <= ssr x y m' 0 /\ (ssr x y m' 0 <= ssr x y m 0 -> m' = m).
Proof. exact (fit0_optimal x y m). Qed.
Print Assumptions C23_origin_optimal.
Theorem C23_origin_defined x y : length x = length y ->
  ((exists a, In a x /\ a <> 0) -> exists m, linfit_zerointercept2 x y = Ok (Some m)) /\
  ((forall a, In a x -> a = 0) -> linfit_zerointercept2 x y = Ok None).
Proof. exact (fit0_defined x y). Qed.
Print Assumptions C23_origin_defined.
Example C23_origin_example : linfit_zerointercept2 ex_x ex_y = Ok (Some (Q2Qc (4 # 5))).
Proof. apply ok_some_eq. vm_compute. reflexivity. Qed.

(* points with a nan do not count *)
Theorem C23_nan x y x' y' : without_nan x y x' y' ->
  length x = length y /\ length x' = length y' /\ forall v, nanlinfit2 x y v = linfit2 x' y' v.
Proof. exact (nan_fit x y x' y'). Qed.
Print Assumptions C23_nan.
Example C23_nan_example : without_nan [Some 0; None; Some 1; Some 1] [Some 1; Some 1; None; Some 0] [0; 1] [1; 0].
Proof. repeat constructor. Qed.

Theorem C23_refused x y v : (v = true -> linfit2 x y v = Err NotImplementedError) /\
  (length x <> length y -> linfit2 x y false = Err ValueError).
Proof. exact (fit_refused x y v). Qed.
Print Assumptions C23_refused.
Example C23_refused_example : length ex_x <> length [0; 1] /\ linfit2 ex_x ex_y true = Err NotImplementedError.
Proof. split; [discriminate|reflexivity]. Qed.

(* the errors of the closed form are those of the matrix form: with s the sum of squares
   over the degrees of freedom, s n / D and s sum(x^2) / D *)
Theorem C23_errors x y m b : length x = length y -> (3 <= length x)%nat -> linfit2 x y false = Ok (Some m, Some b) ->
  let s := ssr x y m b / (qlen x - Qc_of_Z 2) in
  let D := qlen x * qsum (map (fun a => a * a) x) - qsum x * qsum x in
  let vm := s * qlen x / D in
  let vb := s * qsum (map (fun a => a * a) x) / D in
  linfit2_errors x y false = Ok ((Some m, Some b), (Some vm, Some vb)) /\
  lstsq_std (line_matrix x) y [m; b] None = Ok (Some [vm; vb]).
Proof. exact (fit_errors x y m b). Qed.
Print Assumptions C23_errors.
Example C23_errors_example : length ex_x = length ex_y /\ (3 <= length ex_x)%nat /\ ssr ex_x ex_y (Q2Qc (1 # 2)) (Q2Qc (1 # 2)) = Q2Qc (3 # 2).
Proof. split; [reflexivity|]. split; [repeat constructor|]. apply Qc_is_canon. reflexivity. Qed.

(* through the origin the closed form and the matrix form give different errors *)
Theorem C23_origin_errors_refuted : exists x y m v v',
  linfit_zerointercept2_errors x y = Ok (Some m, Some v) /\ lstsq_std (origin_matrix x) y [m] None = Ok (Some [v']) /\ v <> v'.
Proof. exact origin_errors. Qed.
Print Assumptions C23_origin_errors_refuted.

(* C24: the solver returns the one solution, and refuses exactly the systems whose
   homogeneous system has a solution that is not zero *)
Theorem C24_solves A n b : shp A = [n; n] -> length b = n -> det n (entries A) <> 0 ->
  exists x, cramer A b = Ok x /\ length x = n /\
    (forall i, (i < n)%nat -> qsumn n (fun k => elt A [i; k] * nth k x 0) = nth i b 0) /\
    forall x', length x' = n -> (forall i, (i < n)%nat -> qsumn n (fun k => elt A [i; k] * nth k x' 0) = nth i b 0) -> x' = x.
Proof. exact (cramer_ok A n b). Qed.
Print Assumptions C24_solves.
Theorem C24_decides A n b : shp A = [n; n] -> length b = n ->
  (cramer A b = Err RuntimeError <->
    exists x, (exists k, (k < n)%nat /\ x k <> 0) /\ forall i, (i < n)%nat -> qsumn n (fun k => elt A [i; k] * x k) = 0).
Proof. exact (cramer_decides A n b). Qed.
Print Assumptions C24_decides.
Theorem C24_refused A b :
  ((forall n, shp A <> [n; n]) -> cramer A b = Err LinAlgError) /\
  (forall n, shp A = [n; n] -> det n (entries A) <> 0 -> (n <> 0)%nat -> length b <> n -> length b <> 1%nat -> cramer A b = Err ValueError).
Proof. exact (cramer_rejects A b). Qed.
Print Assumptions C24_refused.
Definition ex_A : arr Qc := matrix3 0 1 0  1 0 (Qc_of_Z 2)  0 1 1.
Example C24_example : shp ex_A = [3; 3]%nat /\ det 3 (entries ex_A) = Qc_of_Z (-1) /\
  cramer ex_A [1; 0; Qc_of_Z 3] = Ok [Qc_of_Z (-4); 1; Qc_of_Z 2].
Proof. split; [reflexivity|]. split; [apply Qc_is_canon; reflexivity|]. apply FtProofs.Qc_ok_list_eq. vm_compute. reflexivity. Qed.
Example C24_singular_example : cramer (matrix3 1 1 0 1 1 0 0 0 1) [1; 0; 1] = Err RuntimeError /\ (forall n, shp (mat 2 3 (fun _ _ => 1)) <> [n; n]).
Proof. split; [vm_compute; reflexivity|]. intros n [=]. congruence. Qed.

(* C58: the covariances of the parameters of a linear least squares problem are those
   obtained by propagating the errors through the estimator; there is no result exactly
   when the columns are dependent *)
Theorem C58_propagation A m n e : shp A = [m; n] -> noise_shape m e -> (m = n -> no_zero_variance e) ->
  (dependent_columns A -> lstsq_cov A e = Err LinAlgError) /\
  (~ dependent_columns A -> exists M C, lstsq_cov A e = Ok (Some C) /\ estimator M A /\ propagated M e C).
Proof. exact (cov_spec A m n e). Qed.
Print Assumptions C58_propagation.
Definition ex_B : arr Qc := mat 3 2 (fun i j => if (j =? 0)%nat then Qc_of_Z (Z.of_nat i) else 1).
Example C58_example : shp ex_B = [3; 2]%nat /\ noise_shape 3 (Vare [1; Qc_of_Z 2; 0]) /\ ~ dependent_columns ex_B.
Proof.
  split; [reflexivity|]. split; [reflexivity|]. intros (x & (k & Hk & Hx) & HS). cbn [ex_B cols rows shp mat nth] in *.
  assert (H0 := HS 0%nat ltac:(lia)). assert (H1 := HS 1%nat ltac:(lia)). cbv [qsumn entries ex_B mat elt Nat.eqb] in H0, H1. cbn [Z.of_nat Pos.of_succ_nat] in *. change (Qc_of_Z 0) with 0 in *. change (Qc_of_Z 1) with 1 in *.
  assert (x 1%nat = 0) as X1 by (rewrite <- H0; ring). assert (x 0%nat = 0) as X0 by (rewrite <- H1, X1; ring).
  destruct k as [|[|k]]; [contradiction|contradiction|lia].
Qed.

(* C59: converting the peak shape to ratios and back, or to fractions and back, restores
   it *)
Theorem C59_fractions_restored {E} (I : shape_integrals E) p u b1 b2 w1 w2 w3 : fixedarearatios p = true -> bpeak p = true ->
  broadenings p = Some (b1, b2) -> fractions p = Some (w1, w2, w3) -> 0 <= w1 + w2 + w3 -> w1 + w2 + w3 < 1 ->
  regular I u (b1 * gsigma I u) (b2 * gsigma I u) -> gsigma I u <> 0 ->
  exists q p', convert I p (Some u) = Ok q /\ fixedarearatios q = false /\ convert I q None = Ok p' /\
    fixedarearatios p' = true /\ broadenings p' = broadenings p /\ fractions p' = fractions p /\ bpeak p' = bpeak p /\
    slopes p' = slopes q /\ ratios p' = ratios q.
Proof. exact (there_and_back I p u b1 b2 w1 w2 w3). Qed.
Print Assumptions C59_fractions_restored.
Theorem C59_ratios_restored {E} (I : shape_integrals E) p u s1 s2 r1 r2 r3 : fixedarearatios p = false -> bpeak p = true ->
  slopes p = Some (s1, s2) -> ratios p = Some (r1, r2, r3) -> gsigma I u <> 0 -> regular I u s1 s2 ->
  0 <= r1 / (s1 / tnorm I u s1) + r2 / (s2 / tnorm I u s2) + r3 / (gnorm I u / snorm I u) ->
  exists q p', convert I p (Some u) = Ok q /\ fixedarearatios q = true /\ convert I q None = Ok p' /\
    fixedarearatios p' = false /\ slopes p' = slopes p /\ ratios p' = ratios p /\ bpeak p' = bpeak p /\
    broadenings p' = broadenings q /\ fractions p' = fractions q.
Proof. exact (back_and_there I p u s1 s2 r1 r2 r3). Qed.
Print Assumptions C59_ratios_restored.
(* the ratios: relative to the area of the Gaussian *)
Theorem C59_ratios {E} (I : shape_integrals E) p u b1 b2 w1 w2 w3 : fixedarearatios p = true -> broadenings p = Some (b1, b2) ->
  fractions p = Some (w1, w2, w3) -> 0 <= w1 + w2 + w3 -> w1 + w2 + w3 < 1 -> regular I u (b1 * gsigma I u) (b2 * gsigma I u) ->
  exists q r1 r2 r3, convert I p (Some u) = Ok q /\ ratios q = Some (r1, r2, r3) /\ slopes q = Some (b1 * gsigma I u, b2 * gsigma I u) /\
    r1 * tnorm I u (b1 * gsigma I u) * (1 - w1 - w2 - w3) = w1 * (b1 * gsigma I u) /\
    r2 * tnorm I u (b2 * gsigma I u) * (1 - w1 - w2 - w3) = w2 * (b2 * gsigma I u) /\
    r3 * snorm I u * (1 - w1 - w2 - w3) = w3 * gnorm I u.
Proof. exact (ratios_are I p u b1 b2 w1 w2 w3). Qed.
Print Assumptions C59_ratios.
Example C59_example : let w1 := Q2Qc (1 # 10) in let w2 := Q2Qc (1 # 20) in let w3 := 0 in
  fractions (ex_peak true (w1, w2, w3)) = Some (w1, w2, w3) /\ 0 <= w1 + w2 + w3 /\ w1 + w2 + w3 < 1 /\
  regular ex_integrals 1 (1 * gsigma ex_integrals 1) (Qc_of_Z 2 * gsigma ex_integrals 1) /\ gsigma ex_integrals 1 <> 0.
Proof. repeat split; try discriminate. Qed.
Example C59_ratios_example : 0 <= 1 / (1 / tnorm ex_integrals 1 1) + 1 / (1 / tnorm ex_integrals 1 1) + 0 / (gnorm ex_integrals 1 / snorm ex_integrals 1).
Proof. discriminate. Qed.

Theorem C59_refused {E} (I : shape_integrals E) p u b1 b2 w1 w2 w3 :
  (conversionenergy p = None -> convert I p None = Err RuntimeError) /\
  (fixedarearatios p = true -> broadenings p = Some (b1, b2) -> fractions p = Some (w1, w2, w3) ->
   w1 + w2 + w3 < - Q2Qc (1 # 10000) \/ 1 + Q2Qc (1 # 10000) < w1 + w2 + w3 -> convert I p (Some u) = Err RuntimeError).
Proof. exact (convert_refused I p u b1 b2 w1 w2 w3). Qed.
Print Assumptions C59_refused.
Example C59_refused_example : 1 + Q2Qc (1 # 10000) < 1 + 1 + 0 /\ conversionenergy (ex_peak true (0, 0, 0)) = None.
Proof. split; reflexivity. Qed.

(* Without a Gaussian part (its fraction is zero, or it is switched off) the shape is not
   restored. *)
Theorem C59_no_gaussian_refuted : exists w w' q p', w <> w' /\
  convert ex_integrals (ex_peak true w) (Some 1) = Ok q /\ convert ex_integrals q None = Ok p' /\ fractions p' = Some w'.
Proof. exact no_gaussian. Qed.
Print Assumptions C59_no_gaussian_refuted.
Theorem C59_switched_off_refuted : exists w w' q p', w <> w' /\ (let '(w1, w2, w3) := w in 0 <= w1 + w2 + w3 /\ w1 + w2 + w3 < 1) /\
  convert ex_integrals (ex_peak false w) (Some 1) = Ok q /\ convert ex_integrals q None = Ok p' /\ fractions p' = Some w'.
Proof. exact switched_off. Qed.
Print Assumptions C59_switched_off_refuted.
