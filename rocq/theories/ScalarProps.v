(* C53-C56, C68: colours, outliers, look-ups, rounding, least common multiples, weighted sums. *)
From Verif Require Import ScalarModel ScalarSpec ScalarProofs ScalarDigitProofs OutlierProofs.
Local Open Scope Qc_scope.
Local Notation z := Qc_of_Z.

(* ---- C53 ---- *)
(* three bytes, which encode the value within half a step of 1/(2^24-1) *)
Theorem C53_encode : forall x, between 0 x 1 -> exists r g b, rgb x = (r, g, b) /\ byte r /\ byte g /\ byte b /\
  Qc_of_Z (r + 256 * g + 65536 * b) - x * Qc_of_Z (2 ^ 24 - 1) <= half /\
  x * Qc_of_Z (2 ^ 24 - 1) - Qc_of_Z (r + 256 * g + 65536 * b) <= half.
Proof. exact rgb_ok. Qed.
Print Assumptions C53_encode.
Theorem C53_monotone : forall x y r g b r' g' b', between 0 x 1 -> between 0 y 1 -> x <= y ->
  rgb x = (r, g, b) -> rgb y = (r', g', b') -> (r + 256 * g + 65536 * b <= r' + 256 * g' + 65536 * b')%Z.
Proof. exact rgb_monotone. Qed.
Print Assumptions C53_monotone.
(* every colour is the colour of its own code *)
Theorem C53_onto : forall r g b, byte r -> byte g -> byte b ->
  rgb (Qc_of_Z (r + 256 * g + 65536 * b) / Qc_of_Z (2 ^ 24 - 1)) = (r, g, b).
Proof. exact rgb_onto. Qed.
Print Assumptions C53_onto.
(* the colour map: the bytes, or fractions of 255 *)
Theorem C53_colour : forall x alpha, between 0 x 1 -> exists r g b, rgb x = (r, g, b) /\
  colour x alpha true = (Qc_of_Z r, Qc_of_Z g, Qc_of_Z b, alpha) /\
  exists r' g' b', colour x alpha false = (r', g', b', alpha) /\ between 0 r' 1 /\ between 0 g' 1 /\ between 0 b' 1 /\
    r' * Qc_of_Z 255 = Qc_of_Z r /\ g' * Qc_of_Z 255 = Qc_of_Z g /\ b' * Qc_of_Z 255 = Qc_of_Z b.
Proof. exact colour_ok. Qed.
Print Assumptions C53_colour.
Example rgb_case : rgb (Q2Qc (1 # 3)) = (85, 85, 85)%Z /\ rgb (Q2Qc (1 # 2)) = (0, 0, 128)%Z /\ rgb 1 = (255, 255, 255)%Z /\ rgb 0 = (0, 0, 0)%Z.
Proof. vm_compute. auto. Qed.

(* ---- C54 ---- *)
Theorem C54_median : forall l, l <> [] -> is_median l (median l).
Proof. exact median_spec. Qed.
Print Assumptions C54_median.
Theorem C54_median_unique : forall l m m', is_median l m -> is_median l m' -> m = m'.
Proof. exact median_unique. Qed.
Print Assumptions C54_median_unique.
Theorem C54_length : forall argsort x nsigma normal k, length (outliers argsort x nsigma normal k) = length x.
Proof. exact outliers_length. Qed.
Print Assumptions C54_length.
(* flagged: further from the median than the cut-off, when the median absolute deviation is not zero *)
Theorem C54_far_partial : forall argsort x nsigma normal m mad i v b, is_median x m ->
  is_median (map (fun v => Qc_abs (v - m)) x) mad -> mad <> 0 ->
  nth_error x i = Some v -> nth_error (outliers argsort x nsigma normal 0) i = Some b ->
  (b = true <-> nsigma * (factor normal * mad) < Qc_abs (v - m)).
Proof. exact outliers_far. Qed.
Print Assumptions C54_far_partial.
(* otherwise nothing is flagged, however far *)
Theorem C54_zero : forall argsort x nsigma normal m, x <> [] -> is_median x m ->
  is_median (map (fun v => Qc_abs (v - m)) x) 0 -> outliers argsort x nsigma normal 0 = map (fun _ => false) x.
Proof. exact outliers_none. Qed.
Print Assumptions C54_zero.
Theorem C54_zero_refuted : forall argsort,
  outliers argsort [0; 0; 0; z 100] 1 true 0 = [false; false; false; false].
Proof. exact (fun _ => eq_refl). Qed.
Print Assumptions C54_zero_refuted.
(* shifting the data, scaling by a factor other than zero *)
Theorem C54_invariant : forall argsort x nsigma normal k a b, comparing argsort -> a <> 0 ->
  outliers argsort (map (affine a b) x) nsigma normal k = outliers argsort x nsigma normal k.
Proof. exact outliers_affine. Qed.
Print Assumptions C54_invariant.
Theorem C54_half : forall argsort x nsigma normal, 1 <= nsigma ->
  let n := flagged (outliers argsort x nsigma normal 0) in (n + n <= length x)%nat.
Proof. exact outliers_half. Qed.
Print Assumptions C54_half.
(* a fixed number: that many are flagged (at most all, for a negative number all but that many),
   none of them closer to the median than one that is not flagged *)
Theorem C54_fixed : forall argsort x nsigma normal k, sorts argsort -> k <> 0%Z ->
  flagged (outliers argsort x nsigma normal k) = taken k (length x) /\
  forall m i j v w, is_median x m -> nth_error x i = Some v -> nth_error x j = Some w ->
    nth_error (outliers argsort x nsigma normal k) i = Some true -> nth_error (outliers argsort x nsigma normal k) j = Some false ->
    Qc_abs (w - m) <= Qc_abs (v - m).
Proof. exact outliers_fixed. Qed.
Print Assumptions C54_fixed.
Theorem C54_fixed_cutoff : forall argsort x nsigma normal nsigma' normal' k, k <> 0%Z ->
  outliers argsort x nsigma normal k = outliers argsort x nsigma' normal' k.
Proof. exact outliers_fixed_cutoff. Qed.
Print Assumptions C54_fixed_cutoff.
Theorem C54_sort : sorts stable_argsort /\ comparing stable_argsort.
Proof. exact (conj stable_sorts stable_comparing). Qed.
Print Assumptions C54_sort.
Example outliers_case :
  outliers stable_argsort [z 1; z 2; z 3; z 4; z 50] (z 3) true 0 = [false; false; false; false; true] /\
  outliers stable_argsort [z 1; z 20; z 3; z 4; z 50] (z 3) true 2 = [false; true; false; false; true] /\
  outliers stable_argsort [z 1; z 20; z 3; z 4; z 50] (z 3) true (-1) = [true; true; true; false; true] /\
  median [z 1; z 2; z 3; z 4; z 50] = z 3 /\ median [z 1; z 3; z 2; z 4; z 4; z 9] = z 7 / z 2.
Proof. repeat split; try reflexivity; apply Qc_is_canon; vm_compute; reflexivity. Qed.

(* ---- C55 ---- *)
Theorem C55_floor : forall xs ys x i a y, nth_error xs i = Some a -> a <= x ->
  (forall j b, (i < j)%nat -> nth_error xs j = Some b -> x < b) -> nth_error ys i = Some y ->
  interp_floor xs ys x = Ok (Some y).
Proof. exact floor_some. Qed.
Print Assumptions C55_floor.
Theorem C55_ceil : forall xs ys x i a y, nth_error xs i = Some a -> x <= a ->
  (forall j b, (j < i)%nat -> nth_error xs j = Some b -> b < x) -> nth_error ys i = Some y ->
  interp_ceil xs ys x = Ok (Some y).
Proof. exact ceil_some. Qed.
Print Assumptions C55_ceil.
(* between two points of an increasing axis *)
Theorem C55_floor_inside : forall xs ys x i a b y, StronglySorted Qcle xs -> nth_error xs i = Some a -> nth_error xs (S i) = Some b ->
  a <= x -> x < b -> nth_error ys i = Some y -> interp_floor xs ys x = Ok (Some y).
Proof. exact floor_inside. Qed.
Print Assumptions C55_floor_inside.
Theorem C55_ceil_inside : forall xs ys x i a b y, StronglySorted Qcle xs -> nth_error xs i = Some a -> nth_error xs (S i) = Some b ->
  a < x -> x <= b -> nth_error ys (S i) = Some y -> interp_ceil xs ys x = Ok (Some y).
Proof. exact ceil_inside. Qed.
Print Assumptions C55_ceil_inside.
Theorem C55_floor_outside : forall xs ys x, interp_floor xs ys x = Ok None <-> Forall (fun a => x < a) xs.
Proof. exact floor_none. Qed.
Print Assumptions C55_floor_outside.
Theorem C55_ceil_outside : forall xs ys x, interp_ceil xs ys x = Ok None <-> Forall (fun a => a < x) xs.
Proof. exact ceil_none. Qed.
Print Assumptions C55_ceil_outside.
Theorem C55_error : forall xs ys x e, interp_floor xs ys x = Err e \/ interp_ceil xs ys x = Err e ->
  e = IndexError /\ (length ys < length xs)%nat.
Proof. exact interp_error. Qed.
Print Assumptions C55_error.
(* a request of several points does not give numbers *)
Theorem C55_array_refuted : forall xs ys l, call (interp_floor xs ys) (Array l) = Ok MapObject /\
  call (interp_ceil xs ys) (Array l) = Ok MapObject.
Proof. exact (fun _ _ _ => conj eq_refl eq_refl). Qed.
Print Assumptions C55_array_refuted.
Example interp_case :
  interp_floor [z 1; z 3; z 5] [z 10; z 30; z 50] (z 4) = Ok (Some (z 30)) /\
  interp_ceil [z 1; z 3; z 5] [z 10; z 30; z 50] (z 4) = Ok (Some (z 50)) /\
  interp_floor [z 1; z 3; z 5] [z 10; z 30; z 50] (z 0) = Ok None /\
  interp_floor [z 1; z 3; z 5] [z 10; z 30; z 50] (z 9) = Ok (Some (z 50)).
Proof. repeat split; reflexivity. Qed.

(* ---- C56 ---- *)
Theorem C56_ceil : forall x n u, ten (- n) u ->
  multiple_of u (ceil_ndigits x n) /\ x <= ceil_ndigits x n /\ ceil_ndigits x n < x + u.
Proof. exact ceil_ndigits_ok. Qed.
Print Assumptions C56_ceil.
Theorem C56_floor : forall x n u, ten (- n) u ->
  multiple_of u (floor_ndigits x n) /\ floor_ndigits x n <= x /\ x < floor_ndigits x n + u.
Proof. exact floor_ndigits_ok. Qed.
Print Assumptions C56_floor.
Theorem C56_round : forall x n u, ten (- n) u ->
  multiple_of u (round_ndigits x n) /\ x - half * u <= round_ndigits x n /\ round_ndigits x n <= x + half * u.
Proof. exact round_ndigits_ok. Qed.
Print Assumptions C56_round.
Theorem C56_fixed : forall x n u, ten (- n) u -> multiple_of u x ->
  ceil_ndigits x n = x /\ floor_ndigits x n = x /\ round_ndigits x n = x.
Proof. exact ndigits_fixed. Qed.
Print Assumptions C56_fixed.
(* halfway between two multiples: the even one *)
Theorem C56_tie : forall k n u, ten (- n) u ->
  exists j, round_ndigits ((Qc_of_Z k + half) * u) n = Qc_of_Z j * u /\ Z.even j = true /\ (k <= j <= k + 1)%Z.
Proof. exact round_tie. Qed.
Print Assumptions C56_tie.
Theorem C56_unit : forall n u v, ten n u -> ten n v -> u = v.
Proof. exact ten_unique. Qed.
Print Assumptions C56_unit.
(* significant digits *)
Theorem C56_significant : forall x sig v, x <> 0 -> significant x sig v ->
  (exists y, ceil_sig x sig = Ok y /\ multiple_of v y /\ x <= y /\ y < x + v) /\
  (exists y, floor_sig x sig = Ok y /\ multiple_of v y /\ y <= x /\ x < y + v) /\
  (exists y, round_sig x sig = Ok y /\ multiple_of v y /\ x - half * v <= y /\ y <= x + half * v).
Proof. exact sig_functions. Qed.
Print Assumptions C56_significant.
Theorem C56_significant_exists : forall x sig, x <> 0 -> exists v, significant x sig v.
Proof. exact sig_exists. Qed.
Print Assumptions C56_significant_exists.
Theorem C56_relative : forall x sig v r, significant x sig v -> ten (1 - sig) r -> v <= r * Qc_abs x.
Proof. exact sig_relative. Qed.
Print Assumptions C56_relative.
Theorem C56_zero : forall sig, ceil_sig 0 sig = Err ValueError /\ floor_sig 0 sig = Err ValueError /\ round_sig 0 sig = Err ValueError.
Proof. exact sig_zero. Qed.
Print Assumptions C56_zero.
Definition opt_is (r : result Qc) (q : Q) : bool := match r with Ok v => Qc_eqb v (Q2Qc q) | Err _ => false end.
Example digits_case : Qc_eqb (ceil_ndigits (Q2Qc (12345 # 1000)) 1) (Q2Qc (124 # 10)) = true /\
  Qc_eqb (floor_ndigits (Q2Qc (-12345 # 1000)) (-1)) (z (-20)) = true /\
  opt_is (round_sig (Q2Qc (12345 # 1000)) 3) (123 # 10) = true /\ opt_is (ceil_sig (Q2Qc (3 # 7000)) 2) (43 # 100000) = true /\
  opt_is (floor_sig (z 99999) 2) (99000 # 1) = true.
Proof. vm_compute. auto 6. Qed.
Example digits_case_unit : ten (- 1) (Q2Qc (1 # 10)) /\ significant (Q2Qc (12345 # 1000)) 3 (Q2Qc (1 # 10)).
Proof.
  assert (T : ten (- 1) (Q2Qc (1 # 10))) by (right; split; [reflexivity|apply Qc_is_canon; reflexivity]).
  split; [exact T|]. exists 1%Z, (z 10). split; [left; split; [discriminate|reflexivity]|].
  split; [vm_compute; discriminate|]. split; [reflexivity|exact T].
Qed.
(* least common multiple *)
Theorem C56_lcm : forall l m, lcm l = Ok m -> Forall (fun i => (i | m)%Z) l /\
  forall c, Forall (fun i => (i | c)%Z) l -> (m | c)%Z.
Proof. exact lcm_ok. Qed.
Print Assumptions C56_lcm.
Theorem C56_lcm_positive : forall l, Forall (fun i => 0 < i)%Z l -> exists m, lcm l = Ok m /\ (0 < m)%Z.
Proof. exact lcm_positive. Qed.
Print Assumptions C56_lcm_positive.
(* two zeros: an error *)
Theorem C56_lcm_defined : forall l, (exists m, lcm l = Ok m) <-> (zeros l <= 1)%nat.
Proof. exact lcm_defined. Qed.
Print Assumptions C56_lcm_defined.
Theorem C56_lcm_error : forall l e, lcm l = Err e -> e = ZeroDivisionError.
Proof. exact lcm_error. Qed.
Print Assumptions C56_lcm_error.
Example lcm_case : lcm [4; 6; 10]%Z = Ok 60%Z /\ lcm [] = Ok 1%Z /\ lcm [0; 3]%Z = Ok 0%Z /\ lcm [4; -6]%Z = Ok (-12)%Z /\
  lcm [0; 3; 0]%Z = Err ZeroDivisionError.
Proof. repeat split. Qed.

(* ---- C68 ---- *)
Theorem C68_weighted : forall a a' l ws, (a || a' = true)%bool -> (2 <= length l)%nat -> length ws = length l -> sum ws <> 0 ->
  exists m, weightedsum (Many a l) (Some (Many a' ws)) = Ok (Some m) /\ m * sum ws = dot l ws.
Proof. exact weighted_ok. Qed.
Print Assumptions C68_weighted.
Theorem C68_between : forall a a' l ws m lo hi, (2 <= length l)%nat -> length ws = length l ->
  Forall (fun w => 0 <= w) ws -> Forall (fun v => between lo v hi) l ->
  weightedsum (Many a l) (Some (Many a' ws)) = Ok (Some m) -> between lo m hi.
Proof. exact weighted_between. Qed.
Print Assumptions C68_between.
Theorem C68_mean : forall a l w, (2 <= length l)%nat -> (w = None \/ exists x, w = Some (One x)) ->
  exists m, weightedsum (Many a l) w = Ok (Some m) /\ m * Qc_of_Z (Z.of_nat (length l)) = sum l.
Proof. exact mean_ok. Qed.
Print Assumptions C68_mean.
Theorem C68_one : forall a v w, weightedsum (One v) w = Ok (Some v) /\ weightedsum (Many a [v]) w = Ok (Some v).
Proof. exact one_ok. Qed.
Print Assumptions C68_one.
Theorem C68_error : forall v w e, weightedsum v w = Err e ->
  exists a l a' ws, v = Many a l /\ w = Some (Many a' ws) /\
    ((e = TypeError /\ a = false /\ a' = false) \/ (e = ValueError /\ length l <> length ws) \/
     (e = ZeroDivisionError /\ l = [] /\ ws = [])).
Proof. exact weighted_error. Qed.
Print Assumptions C68_error.
(* an array with one weight: the sum of the values, not between them *)
Theorem C68_broadcast_refuted : forall l w, (2 <= length l)%nat -> w <> 0 ->
  weightedsum (Many true l) (Some (Many true [w])) = Ok (Some (sum l)).
Proof. exact broadcast_sum. Qed.
Print Assumptions C68_broadcast_refuted.
(* lists of values and weights: an error *)
Theorem C68_list_refuted : weightedsum (Many false [z 1; z 2]) (Some (Many false [z 1; z 1])) = Err TypeError.
Proof. exact eq_refl. Qed.
Print Assumptions C68_list_refuted.
Definition result_is (r : result (option Qc)) (q : Q) : bool := match r with Ok (Some v) => Qc_eqb v (Q2Qc q) | _ => false end.
Example weighted_case : result_is (weightedsum (Many true [z 1; z 2; z 5]) (Some (Many false [z 1; z 2; z 1]))) (5 # 2) = true /\
  result_is (weightedsum (Many true [z 1; z 2; z 5]) None) (8 # 3) = true /\
  result_is (weightedsum (Many true [z 1; z 2; z 5]) (Some (Many true [z 7]))) (8 # 1) = true.
Proof. vm_compute. auto. Qed.
