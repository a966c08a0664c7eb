(* C83: the position of a peak. *)
From Verif Require Import CenterModel CenterSpec CenterProofs.
Local Open Scope Qc_scope.

(* The maximum is the first of the greatest numbers, NaN aside; the minimum the first of the least; without any number both raise ValueError. *)
Theorem C83_extrema : forall l, (forall i, fmax1 l = Ok i <-> exists m, first_greatest l i m) /\ (fmax1 l = Err ValueError <-> no_number l) /\ (fmin1 l = Err ValueError <-> no_number l)
  /\ (forall i, fmin1 l = Ok i <-> exists m, nth_error l i = Some (Some m) /\ (forall j v, nth_error l j = Some (Some v) -> m <= v) /\ (forall j v, (j < i)%nat -> nth_error l j = Some (Some v) -> m < v)).
Proof. exact fmax_spec. Qed.
Print Assumptions C83_extrema.
Definition line : list datum := [Some (Q2Qc (1#1)); None; Some (Q2Qc (19#2)); Some (Q2Qc (10#1)); Some (Q2Qc (19#2)); Some (Q2Qc (2#1)); Some (Q2Qc (10#1))].
Example C83_extrema_case : fmax1 line = Ok 3%nat /\ fmin1 line = Ok 0%nat /\ fmax1 [None; None] = Err ValueError /\ fmin1 [] = Err ValueError.
Proof. split; [|split; [|split]]; vm_compute; reflexivity. Qed.

(* In an image the row comes first, and the pixel is greatest (least) among all. *)
Theorem C83_maximum : forall d y x, fmax2 d = Ok (y, x) -> (y < ny d)%nat /\ (x < nx d)%nat /\ exists m, pix d y x = Some m /\ forall i j v, (i < ny d)%nat -> (j < nx d)%nat -> pix d i j = Some v -> v <= m.
Proof. exact fmax2_spec. Qed.
Print Assumptions C83_maximum.
Theorem C83_minimum : forall d y x, fmin2 d = Ok (y, x) -> (y < ny d)%nat /\ (x < nx d)%nat /\ exists m, pix d y x = Some m /\ forall i j v, (i < ny d)%nat -> (j < nx d)%nat -> pix d i j = Some v -> m <= v.
Proof. exact fmin2_spec. Qed.
Print Assumptions C83_minimum.
Definition picture : image := {| ny := 2; nx := 3; pix := fun i j => if ((i =? 0) && (j =? 0))%nat then None else Some (of_nat (j * j) - of_nat (3 * i)) |}.
Example C83_maximum_case : fmax2 picture = Ok (0, 2)%nat /\ fmin2 picture = Ok (1, 0)%nat.
Proof. split; vm_compute; reflexivity. Qed.
Theorem C83_nothing : forall d, (forall i j, (i < ny d)%nat -> (j < nx d)%nat -> pix d i j = None) -> fmax2 d = Err ValueError /\ fmin2 d = Err ValueError.
Proof. exact fmax2_error. Qed.
Print Assumptions C83_nothing.

(* The window around the peak: symmetric, everything but its ends above the threshold, and as wide as that allows. *)
Theorem C83_window : forall data proc thr s m, first_greatest data s m -> exists k, reach data (thr * m) s k
  /\ foptimize1 data proc thr = Ok (if (k =? 0)%nat then Some (of_nat s) else nadd (proc (slice data (s - k) (S (s + k)))) (Some (of_nat (s - k)))).
Proof. exact optimize_spec. Qed.
Print Assumptions C83_window.
Theorem C83_window_error : forall data proc thr, no_number data -> foptimize1 data proc thr = Err ValueError.
Proof. exact optimize_error. Qed.
Print Assumptions C83_window_error.

(* The centroid in one dimension is the centre of mass of that window, in the coordinates of the data. *)
Theorem C83_centroid : forall data s m, first_greatest data s m -> exists k, reach data (Q2Qc (9 # 10) * m) s k
  /\ (k = 0%nat -> fcentroid1 data = Ok (Some (of_nat s)))
  /\ (forall w, (0 < k)%nat -> numbers data (s - k) (S (s + k)) w -> mass one w 0 <> 0 -> fcentroid1 data = Ok (Some (mass of_nat w (s - k) / mass one w 0))).
Proof. exact centroid_spec. Qed.
Print Assumptions C83_centroid.
Definition skew : list datum := map Some [Q2Qc (1#1); Q2Qc (92#10); Q2Qc (10#1); Q2Qc (98#10); Q2Qc (2#1)].
Example C83_centroid_case : exists r, fcentroid1 skew = Ok (Some r) /\ of_nat 2 < r /\ r < of_nat 3 /\ fmax1 skew = Ok 2%nat.
Proof. eexists. split; [vm_compute; reflexivity|]. repeat split; vm_compute; reflexivity. Qed.

(* A centre of mass of nonnegative values lies in its window; for a symmetric peak it is the maximum itself. *)
Theorem C83_within : forall w a, Forall (fun v => 0 <= v) w -> mass one w 0 <> 0 -> of_nat a <= mass of_nat w a / mass one w 0 /\ mass of_nat w a / mass one w 0 <= of_nat (a + length w - 1).
Proof. exact centroid_within. Qed.
Print Assumptions C83_within.
Theorem C83_symmetric : forall w k s, w = rev w -> length w = S (k + k) -> (k <= s)%nat -> mass one w 0 <> 0 -> mass of_nat w (s - k) / mass one w 0 = of_nat s.
Proof. exact centroid_symmetric. Qed.
Print Assumptions C83_symmetric.
Example C83_symmetric_case : let w := [Q2Qc (9#1); Q2Qc (10#1); Q2Qc (9#1)] in w = rev w /\ length w = 3%nat /\ mass one w 0 <> 0.
Proof. split; [reflexivity|]. split; [reflexivity|]. vm_compute. discriminate. Qed.

(* In an image the window is the greatest square around the maximum whose smaller squares hold nothing below the threshold. *)
Theorem C83_square : forall d proc thr y x, fmax2 d = Ok (y, x) -> exists m off, pix d y x = Some m /\ reach2 d (thr * m) y x off
  /\ foptimize2 d proc thr = Ok (if (off =? 0)%nat then (Some (of_nat y), Some (of_nat x)) else let p := proc (window d y x off) in
       (nadd (nadd (Some (of_nat y)) (fst p)) (Some (- of_nat off)), nadd (nadd (Some (of_nat x)) (snd p)) (Some (- of_nat off)))).
Proof. exact optimize2_spec. Qed.
Print Assumptions C83_square.
(* The centroid in two dimensions has its axes exchanged: the offset of the centre of mass along the columns is added to the row, and the other way round. *)
Theorem C83_centroid_image_partial : forall d y x, fmax2 d = Ok (y, x) -> exists m off, pix d y x = Some m /\ reach2 d (Q2Qc (9 # 10) * m) y x off /\ (off = 0%nat -> fcentroid2 d = Ok (Some (of_nat y), Some (of_nat x)))
  /\ forall v, (0 < off)%nat -> (forall i j, (y - off <= i <= y + off)%nat -> (x - off <= j <= x + off)%nat -> pix d i j = Some (v i j)) -> square_sum y x off v <> 0 ->
     let row := square_sum y x off (fun i j => of_nat i * v i j) / square_sum y x off v in let column := square_sum y x off (fun i j => of_nat j * v i j) / square_sum y x off v in
     fcentroid2 d = Ok (Some (of_nat y + (column - of_nat x)), Some (of_nat x + (row - of_nat y))).
Proof. exact centroid2_spec. Qed.
Print Assumptions C83_centroid_image_partial.
(* refuted: a peak that leans to the right is reported as leaning down *)
Theorem C83_axes_refuted : exists d v y x, (forall i j, pix d i j = Some (v i j)) /\ fmax2 d = Ok (1, 1)%nat /\ fcentroid2 d = Ok (Some y, Some x)
  /\ square_sum 1 1 1 (fun i j => of_nat i * v i j) / square_sum 1 1 1 v = 1 /\ square_sum 1 1 1 (fun i j => of_nat j * v i j) / square_sum 1 1 1 v <> 1 /\ y <> 1 /\ x = 1.
Proof. exact centroid2_axes. Qed.
Print Assumptions C83_axes_refuted.
