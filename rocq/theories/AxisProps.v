(* C35 - C38 and C63 - C65: axes. *)
From Verif Require Import Base QcTac ZList ZListProofs AxisModel AxisSpec AxisProofs AxisSegProofs AxisLimProofs AxisExProofs AxisRoundProofs.
Local Open Scope Qc_scope.

(* C35: the index found belongs to a nearest point and is the first such. *)
Theorem C35_nearest axis_int arr v detect : arr <> [] ->
  (detect = true -> axis_int = true -> forall z, v <> NInt z) ->
  exists k, locate axis_int arr (TOne v) detect = Ok (LOne k) /\ first_nearest arr (num_val v) k.
Proof. exact (locate_one axis_int arr v detect). Qed.
Print Assumptions C35_nearest.
Example C35_nearest_ex : [0; 1; Qc_of_Z 2] <> [] /\
  locate false [0; 1; Qc_of_Z 2] (TOne (NFlt (Q2Qc (3 # 2)))) false = Ok (LOne 1).
Proof. split; [discriminate|reflexivity]. Qed.

Theorem C35_nearest_array axis_int arr l detect : arr <> [] -> l <> [] ->
  (detect = true -> axis_int = true -> forall z, ~ In (NInt z) l) ->
  exists ks, locate axis_int arr (TMany l) detect = Ok (LMany ks) /\
    Forall2 (fun v k => first_nearest arr (num_val v) k) l ks.
Proof. exact (locate_many axis_int arr l detect). Qed.
Print Assumptions C35_nearest_array.

(* An axis point of a strictly monotonic axis is found at its own index. *)
Theorem C35_own_point axis_int arr v k : monotonic arr -> point arr k = Some (num_val v) ->
  locate axis_int arr (TOne v) false = Ok (LOne k).
Proof. exact (locate_own axis_int arr v k). Qed.
Print Assumptions C35_own_point.
Example C35_own_point_ex : monotonic [Qc_of_Z 5; Qc_of_Z 3; Qc_of_Z 2] /\
  locate true [Qc_of_Z 5; Qc_of_Z 3; Qc_of_Z 2] (TOne (NInt 3)) false = Ok (LOne 1).
Proof. split; [exact ex_monotonic|reflexivity]. Qed.

(* An integer on an integer axis is taken as an index when asked to. *)
Theorem C35_index arr z : arr <> [] -> locate true arr (TOne (NInt z)) true = Ok (LOne z).
Proof. exact (fun H => match arr as l return l <> [] -> locate true l (TOne (NInt z)) true = Ok (LOne z) with
  | [] => fun H => match H eq_refl with end | _ :: _ => fun _ => eq_refl end H). Qed.
Print Assumptions C35_index.

(* Nothing can be located on an axis without points. *)
Theorem C35_empty axis_int v detect :
  locate axis_int [] (TOne v) detect = Err (if detect then IndexError else ValueError).
Proof. exact (match v, detect as d return locate axis_int [] (TOne v) d = Err (if d then IndexError else ValueError)
  with NInt _, true | NInt _, false | NFlt _, true | NFlt _, false => eq_refl end). Qed.
Print Assumptions C35_empty.

(* Axes of strings: the first string of maximal similarity, when any is similar. *)
Theorem C35_string ratios x : (exists i, point ratios i = Some x) -> 0 < x ->
  exists y, point ratios (arg_closest_string ratios) = Some y /\
    (forall i z, point ratios i = Some z -> z <= y) /\
    (forall i z, (i < arg_closest_string ratios)%Z -> point ratios i = Some z -> z < y).
Proof. exact (closest_string_ok ratios x). Qed.
Print Assumptions C35_string.

(* Other categories: the first equal entry, or an error. *)
Theorem C35_category {A} (eqb : A -> A -> bool) arr v : decides_eq eqb ->
  (In v arr -> exists i, arg_index eqb arr v = Ok (0 + i)%Z /\ point arr i = Some v /\
     forall j, (j < i)%Z -> point arr j <> Some v) /\
  (~ In v arr -> arg_index eqb arr v = Err ValueError).
Proof. exact (fun D => index_from_spec eqb D v arr 0). Qed.
Print Assumptions C35_category.

(* C36: start, end and number of intervals give that many equal intervals. *)
Theorem C36_construct p s e n : (1 <= n)%Z ->
  exists a, make_regular p s e n = Ok a /\ a_precision a = p /\
    a_form a = Regular s e ((e - s) / Qc_of_Z n) (n + 1) /\
    progression (a_values a) s ((e - s) / Qc_of_Z n) (n + 1) /\
    e = s + Qc_of_Z (n + 1 - 1) * ((e - s) / Qc_of_Z n).
Proof. exact (make_regular_form p s e n). Qed.
Print Assumptions C36_construct.
Theorem C36_construct_inc p s d n : (0 <= n)%Z ->
  exists a, make_inc p s d n = Ok a /\ a_precision a = p /\
    a_form a = RegularInc s (s + Qc_of_Z n * d) d (n + 1) /\
    progression (a_values a) s d (n + 1) /\
    s + Qc_of_Z n * d = s + Qc_of_Z (n + 1 - 1) * d.
Proof. exact (make_inc_form p s d n). Qed.
Print Assumptions C36_construct_inc.
Theorem C36_zapscan start stop n : (1 <= n)%Z -> exists a, zapscan start stop n = Ok a /\
  progression (a_values a) (start + (stop - start) / Qc_of_Z n / Qc_of_Z 2) ((stop - start) / Qc_of_Z n) n.
Proof. exact (zap start stop n). Qed.
Print Assumptions C36_zapscan.

(* Any sequence of implemented modifications leaves consistent values.
   Missing from the full property: the number of points is not kept when the
   start, end or step changes, see C36_points_refuted. *)
Theorem C36_sequence_partial l a s e d n :
  a_form a = Regular s e d n /\ progression (a_values a) s d n /\ e = s + Qc_of_Z (n - 1) * d ->
  (2 <= n)%Z -> Forall regular_op l ->
  let '(s', e', n') := fold_left regular_after l (s, e, n) in
  exists b d', apply_ops a l = Ok b /\ (2 <= n')%Z /\
    a_form b = Regular s' e' d' n' /\ progression (a_values b) s' d' n' /\ e' = s' + Qc_of_Z (n' - 1) * d'.
Proof. exact (reg_ops l a s e d n). Qed.
Print Assumptions C36_sequence_partial.
Theorem C36_inc_sequence_partial l a s e d n :
  a_form a = RegularInc s e d n /\ progression (a_values a) s d n /\ e = s + Qc_of_Z (n - 1) * d ->
  (1 <= n)%Z -> Forall inc_op l ->
  let '(s', d', n') := fold_left inc_after l (s, d, n) in
  exists b e', apply_ops a l = Ok b /\ (1 <= n')%Z /\
    a_form b = RegularInc s' e' d' n' /\ progression (a_values b) s' d' n' /\ e' = s' + Qc_of_Z (n' - 1) * d'.
Proof. exact (inc_ops l a s e d n). Qed.
Print Assumptions C36_inc_sequence_partial.
Example C36_sequence_ex : exists a b, make_regular 0 0 (Qc_of_Z 6) 3 = Ok a /\
  apply_ops a [SetStart (Qc_of_Z 2); SetNsteps 2; SetEnd (Qc_of_Z 8)] = Ok b /\ a_size b = 4%Z /\
  Forall regular_op [SetStart (Qc_of_Z 2); SetNsteps 2; SetEnd (Qc_of_Z 8)].
Proof.
  do 2 eexists. split; [reflexivity|]. split; [reflexivity|]. split; [reflexivity|].
  constructor; [exact I|]. constructor; [cbn; lia|]. constructor; [exact I|constructor].
Qed.

(* Assigning any start, even the present one, adds a point; so does assigning
   a step size. *)
Theorem C36_points_refuted a s e d n v : a_form a = Regular s e d n -> (1 <= n)%Z ->
  exists b, apply_op a (SetStart v) = Ok b /\ a_size b = (a_size a + 1)%Z.
Proof. exact (size_grows a s e d n v). Qed.
Print Assumptions C36_points_refuted.
Theorem C36_points_inc_refuted a s e d n v : a_form a = RegularInc s e d n -> (0 <= n)%Z ->
  exists b, apply_op a (SetStep v) = Ok b /\ a_size b = (a_size a + 1)%Z.
Proof. exact (size_grows_inc a s e d n v). Qed.
Print Assumptions C36_points_inc_refuted.
(* The step size of an axis with a fixed end is overwritten without any effect
   on the values. *)
Theorem C36_step_refuted : exists a b x0 x1, make_regular 0 0 (Qc_of_Z 2) 2 = Ok a /\
  apply_op a (SetStep (Qc_of_Z 5)) = Ok b /\ start_stepsize b = Ok (Qc_of_Z 5) /\
  point (a_values b) 0 = Some x0 /\ point (a_values b) 1 = Some x1 /\ x1 - x0 = 1.
Proof. exact step_ignored. Qed.
Print Assumptions C36_step_refuted.

(* C37: the points of a segmented axis. *)
Theorem C37_segments p limits ns : ns <> [] -> length limits = S (length ns) -> Forall (fun n => 1 <= n)%Z ns ->
  exists st vs, make_segments p limits ns = Ok (Axis (Segments limits ns st) vs p) /\ length st = length ns /\
    plen vs = (zsum ns + 1)%Z /\
    (forall j n s e, nth_error ns j = Some n -> nth_error limits j = Some s -> nth_error limits (S j) = Some e ->
      exists d, nth_error st j = Some d /\ d = (e - s) / Qc_of_Z n /\
        forall k, (0 <= k <= n)%Z -> point vs (before ns j + k) = Some (s + Qc_of_Z k * d)).
Proof. exact (segments_ok p limits ns). Qed.
Print Assumptions C37_segments.
Example C37_segments_ex : exists a, make_segments 0 [0; 1; Qc_of_Z 3] [2; 1]%Z = Ok a /\ plen (a_values a) = 4%Z /\
  [2; 1]%Z <> [] /\ length [0; 1; Qc_of_Z 3] = 3%nat /\ Forall (fun n => 1 <= n)%Z [2; 1]%Z.
Proof. eexists. split; [reflexivity|]. split; [reflexivity|]. split; [discriminate|]. split; [reflexivity|]. repeat constructor; lia. Qed.
(* Step sizes that divide their segments are taken over exactly. *)
Theorem C37_stepsizes p limits ns st0 vs0 st : ns <> [] -> length limits = S (length ns) ->
  Forall (fun n => 1 <= n)%Z ns -> length st = length ns ->
  (forall j n s e d, nth_error ns j = Some n -> nth_error limits j = Some s -> nth_error limits (S j) = Some e ->
     nth_error st j = Some d -> d <> 0 /\ e - s = Qc_of_Z n * d) ->
  forall ns0, exists vs, set_stepsizes (Axis (Segments limits ns0 st0) vs0 p) st = Ok (Axis (Segments limits ns st) vs p) /\
    plen vs = (zsum ns + 1)%Z.
Proof. exact (set_stepsizes_ok p limits ns st0 vs0 st). Qed.
Print Assumptions C37_stepsizes.
(* Any other step size gives the nearest number of steps, the even one of two. *)
Theorem C37_stepsizes_rounded p limits ns0 st0 vs0 st a : set_stepsizes (Axis (Segments limits ns0 st0) vs0 p) st = Ok a ->
  exists lm ns st', a_form a = Segments lm ns st' /\ length ns = length st /\
  forall j n s e d, nth_error ns j = Some n -> nth_error limits j = Some s -> nth_error limits (S j) = Some e -> nth_error st j = Some d ->
    d <> 0 /\ - Q2Qc (1 # 2) <= Qc_of_Z n - (e - s) / d /\ Qc_of_Z n - (e - s) / d <= Q2Qc (1 # 2) /\
    (Qc_of_Z n - (e - s) / d = Q2Qc (1 # 2) \/ Qc_of_Z n - (e - s) / d = - Q2Qc (1 # 2) -> Z.even n = true).
Proof. exact (set_stepsizes_near p limits ns0 st0 vs0 st a). Qed.
Print Assumptions C37_stepsizes_rounded.
Example C37_stepsizes_rounded_ex :
  match set_stepsizes (Axis (Segments [0; Qc_of_Z 5; Qc_of_Z 12] [1; 1]%Z [Qc_of_Z 5; Qc_of_Z 7]) [0; Qc_of_Z 5; Qc_of_Z 12] 0) [Qc_of_Z 2; Q2Qc (9 # 5)] with
  | Ok a => match a_form a with Segments _ ns _ => Some ns | _ => None end
  | Err _ => None
  end = Some [2; 4]%Z.
Proof. vm_compute. reflexivity. Qed.
(* A step size of zero is an error. *)
Theorem C37_stepsizes_zero p a b limits ns0 st0 vs0 st : set_stepsizes (Axis (Segments (a :: b :: limits) ns0 st0) vs0 p) (0 :: st) = Err ZeroDivisionError.
Proof. exact (set_stepsizes_zero p a b limits ns0 st0 vs0 st). Qed.
Print Assumptions C37_stepsizes_zero.
(* The step size at the end is the one of the second segment: it does not exist
   with one segment and is wrong with three. *)
Theorem C37_endstep_refuted : exists a, make_segments 0 [0; Qc_of_Z 4] [2%Z] = Ok a /\ end_stepsize a = Err IndexError /\
  newend a (Qc_of_Z 5) = Err IndexError.
Proof. exact endstep_one. Qed.
Print Assumptions C37_endstep_refuted.
Theorem C37_endstep_three_refuted : exists a d x y, make_segments 0 [0; 1; Qc_of_Z 2; Qc_of_Z 6] [1; 1; 1]%Z = Ok a /\
  end_stepsize a = Ok d /\ point (a_values a) 2 = Some x /\ point (a_values a) 3 = Some y /\ d <> y - x.
Proof. exact endstep_three. Qed.
Print Assumptions C37_endstep_three_refuted.

(* C38: moving the start of an equidistant axis shifts it by whole steps, just
   far enough; None when no point is left. *)
Theorem C38_newstart a s d n v : regular_axis a s d n ->
  exists k, covers (s - Qc_of_Z k * d) v (- d) /\
    ((n + k <= 0)%Z /\ newstart a v = Ok None \/
     (0 < n + k)%Z /\ exists b, newstart a v = Ok (Some b) /\
       progression (a_values b) (s - Qc_of_Z k * d) d (n + k) /\
       ((2 <= n + k)%Z -> regular_axis b (s - Qc_of_Z k * d) d (n + k))).
Proof. exact (newstart_ok a s d n v). Qed.
Print Assumptions C38_newstart.
Theorem C38_newend a s d n v : regular_axis a s d n ->
  exists k, covers (s + Qc_of_Z (n + k - 1) * d) v d /\
    ((n + k <= 0)%Z /\ newend a v = Ok None \/
     (0 < n + k)%Z /\ exists b, newend a v = Ok (Some b) /\
       progression (a_values b) s d (n + k) /\
       ((2 <= n + k)%Z -> regular_axis b s d (n + k))).
Proof. exact (newend_ok a s d n v). Qed.
Print Assumptions C38_newend.
(* Both limits, when the new start lies before the last point: the new axis
   covers both limits minimally and keeps the old points between them.
   Missing from the full property: a new start at or beyond the last point, see
   C38_single_refuted. *)
Theorem C38_newlimits_partial a s d n v w : regular_axis a s d n ->
  (v - (s + Qc_of_Z (n - 1) * d)) / d < 0 ->
  exists k m, covers (s - Qc_of_Z k * d) v (- d) /\ covers (s + Qc_of_Z (m - k - 1) * d) w d /\
    ((m <= 0)%Z /\ newlimits a v w = Ok None \/
     (0 < m)%Z /\ exists b, newlimits a v w = Ok (Some b) /\ progression (a_values b) (s - Qc_of_Z k * d) d m /\
       forall i, (0 <= i < n)%Z -> (0 <= i + k < m)%Z -> point (a_values b) (i + k) = point (a_values a) i).
Proof. exact (newlimits_ok a s d n v w). Qed.
Print Assumptions C38_newlimits_partial.
Example C38_newlimits_ex : exists a, make_regular 0 0 (Qc_of_Z 3) 3 = Ok a /\ regular_axis a 0 1 4 /\
  (Qc_of_Z 1 - (0 + Qc_of_Z (4 - 1) * 1)) / 1 < 0.
Proof. exact ex_regular. Qed.
(* When the new start leaves one point, the step size is lost and the new end
   cannot be computed: 0, 1, 2 with limits 2 and 5. *)
Theorem C38_single_refuted : exists a, make_regular 0 0 (Qc_of_Z 2) 2 = Ok a /\
  newlimits a (Qc_of_Z 2) (Qc_of_Z 5) = Err OverflowError.
Proof. exact single_left. Qed.
Print Assumptions C38_single_refuted.

(* C63: simplification without tolerance keeps every point. *)
Theorem C63_exact x : x <> [] ->
  exists b, simplify (make_plain 0 x) = Ok b /\ a_values b = x /\ a_precision b = 0.
Proof. exact (simplify_exact x). Qed.
Print Assumptions C63_exact.
Example C63_exact_ex : exists b lm ns st, [0; 1; Qc_of_Z 2; Qc_of_Z 3; Qc_of_Z 5; Qc_of_Z 7; Qc_of_Z 9] <> [] /\
  simplify (make_plain 0 [0; 1; Qc_of_Z 2; Qc_of_Z 3; Qc_of_Z 5; Qc_of_Z 7; Qc_of_Z 9]) = Ok b /\
  a_form b = Segments lm ns st /\ ns = [3; 3]%Z.
Proof. do 4 eexists. split; [discriminate|]. split; [reflexivity|]. split; reflexivity. Qed.
(* With any tolerance: the number of points, the first and the last point. *)
Theorem C63_shape_partial p x : x <> [] -> exists b, simplify (make_plain p x) = Ok b /\ a_precision b = p /\
  plen (a_values b) = plen x /\ a_size b = plen x /\ point (a_values b) 0 = point x 0 /\
  point (a_values b) (plen x - 1) = point x (plen x - 1).
Proof. exact (simplify_shape p x). Qed.
Print Assumptions C63_shape_partial.
(* The deviations of the step sizes add up: with tolerance 1 a point moves by 2. *)
Theorem C63_precision_refuted : exists b x y,
  simplify (make_plain 1 [0; 0; 1; Qc_of_Z 3; Qc_of_Z 6]) = Ok b /\
  point (a_values b) 2 = Some x /\ point [0; 0; 1; Qc_of_Z 3; Qc_of_Z 6] 2 = Some y /\ 1 < Qc_abs (x - y).
Proof. exact simplify_far. Qed.
Print Assumptions C63_precision_refuted.

(* C64: equality compares point by point. *)
Theorem C64_equal p v w : exists b, axis_eq p v w = Ok b /\ (b = true <-> Forall2 (same_point p) v w).
Proof. exact (axis_eq_spec p v w). Qed.
Print Assumptions C64_equal.
(* Only the precision of the left axis counts, so equality is not symmetric. *)
Theorem C64_symmetric_refuted : axis_eq 1 [Some 0] [Some 1] = Ok true /\ axis_eq 0 [Some 1] [Some 0] = Ok false.
Proof. exact eq_asym. Qed.
Print Assumptions C64_symmetric_refuted.

(* C65: interpolation coordinates increase and keep all distances. *)
Theorem C65_interpolate arr new : monotonic arr -> (2 <= plen arr)%Z ->
  exists g, interpolate arr new = Ok (map g arr, map g (match new with None => arr | Some l => l end)) /\
    increasing (map g arr) /\ forall x y, Qc_abs (g x - g y) = Qc_abs (x - y).
Proof. exact (interpolate_ok arr new). Qed.
Print Assumptions C65_interpolate.
Example C65_interpolate_ex : monotonic [Qc_of_Z 5; Qc_of_Z 3; Qc_of_Z 2] /\ (2 <= plen [Qc_of_Z 5; Qc_of_Z 3; Qc_of_Z 2])%Z.
Proof. split; [exact ex_monotonic|]. unfold plen. cbn. lia. Qed.
(* An axis with one point cannot be interpolated on. *)
Theorem C65_single_refuted x new : interpolate [x] new = Err IndexError.
Proof. exact eq_refl. Qed.
Print Assumptions C65_single_refuted.
