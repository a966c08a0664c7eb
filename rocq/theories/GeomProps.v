(* C85: the geometry of a detector: solid angle, angles and motor (geometries/base.py, geometries/xrf.py). *)
From Coq Require Import Reals Lra.
From Verif Require Import GeomModel GeomProofs.
Local Open Scope R_scope.

(* area, distance and solid angle: each is found back from the other two *)
Theorem C85_solidangle : forall a d, 0 < a -> 0 < d -> exists s, solidangle_calc (Some a) (Some d) None = Ok s /\ 0 < s < 2 * PI /\ solidangle_calc (Some a) None (Some s) = Ok d /\ solidangle_calc None (Some d) (Some s) = Ok a.
Proof. exact cone_inverse. Qed.
Print Assumptions C85_solidangle.
(* every solid angle less than half the space belongs to one distance *)
Theorem C85_distance : forall a s, 0 < a -> 0 < s < 2 * PI -> exists d, solidangle_calc (Some a) None (Some s) = Ok d /\ 0 < d /\ solidangle_calc (Some a) (Some d) None = Ok s.
Proof. exact distance_inverse. Qed.
Print Assumptions C85_distance.
(* it is the solid angle of the cone from the source to the rim of the active area *)
Theorem C85_cone : forall a d s, 0 < a -> 0 < d -> solidangle_calc (Some a) (Some d) None = Ok s -> exists theta, 0 < theta < PI / 2 /\ d * tan theta = sqrt (a / PI) /\ s = 2 * PI * (1 - cos theta).
Proof. exact cone_angle. Qed.
Print Assumptions C85_cone.
(* a greater or closer detector covers more *)
Theorem C85_monotone : forall a1 a2 d1 d2 s1 s2, 0 < a1 -> a1 <= a2 -> 0 < d2 -> d2 <= d1 -> solidangle_calc (Some a1) (Some d1) None = Ok s1 -> solidangle_calc (Some a2) (Some d2) None = Ok s2 -> s1 <= s2.
Proof. exact cone_mono. Qed.
Print Assumptions C85_monotone.
Example C85_solidangle_ex : exists s, solidangle_calc (Some PI) (Some 1) None = Ok s /\ s = 2 * PI * (1 - 1 / sqrt 2) /\ 0 < s < 2 * PI.
Proof.
  destruct (C85_solidangle PI 1 PI_RGT_0 Rlt_0_1) as (s & E & B & _). exists s. split; [exact E|]. split; [|exact B]. assert (X : Ok s = Ok (2 * PI * (1 - 1 / sqrt (PI / PI + 1 * 1)))) by (rewrite <- E; reflexivity). assert (Y : s = 2 * PI * (1 - 1 / sqrt (PI / PI + 1 * 1))) by congruence. rewrite Y. do 4 f_equal. pose proof PI_RGT_0. field. lra.
Qed.
(* a negative distance: more than half the space, and the distance comes back positive *)
Theorem C85_behind : forall a d, 0 < a -> d < 0 -> exists s, solidangle_calc (Some a) (Some d) None = Ok s /\ 2 * PI < s < 4 * PI /\ solidangle_calc (Some a) None (Some s) = Ok (- d).
Proof. exact cone_behind. Qed.
Print Assumptions C85_behind.
(* nothing or too much to calculate *)
Theorem C85_errors : forall a d s, solidangle_calc (Some a) (Some d) (Some s) = Err RuntimeError /\ (forall x, solidangle_calc None x None = Err TypeError) /\ (forall x, solidangle_calc x None None = Err TypeError) /\ solidangle_calc None None (Some s) = Err TypeError.
Proof. exact cone_errors. Qed.
Print Assumptions C85_errors.
(* the angles with the normal *)
Theorem C85_angles : forall g, cosnormin g = sin (radians (anglein g)) /\ cosnormout g = - sin (radians (angleout g)) /\ scatteringangle g = anglenormout g - anglenormin g.
Proof. exact angles_spec. Qed.
Print Assumptions C85_angles.
(* the beam enters, and leaves again through the same side in reflection *)
Theorem C85_angles_sign : forall g, (0 < anglein g <= 90 -> 0 < cosnormin g <= 1) /\ (-90 <= angleout g <= 90 -> (reflection g <-> cosnormout g < 0)).
Proof. exact angles_sign. Qed.
Print Assumptions C85_angles_sign.
(* setting one angle *)
Theorem C85_angles_set : forall g v, anglenormin (set_anglenormin v g) = v /\ anglenormout (set_anglenormin v g) = anglenormout g /\ anglenormout (set_anglenormout v g) = v /\ anglenormin (set_anglenormout v g) = anglenormin g.
Proof. exact angles_set. Qed.
Print Assumptions C85_angles_set.
Example C85_angles_ex : let g := {| anglein := 62; angleout := 58 |} in anglenormin g = 28 /\ anglenormout g = 148 /\ reflection g /\ 0 < cosnormin g <= 1 /\ cosnormout g < 0.
Proof.
  cbv zeta. split; [unfold anglenormin; cbn; lra|]. split; [unfold anglenormout; cbn; lra|]. assert (X : reflection {| anglein := 62; angleout := 58 |}) by (unfold reflection; cbn; lra). split; [exact X|]. destruct (C85_angles_sign {| anglein := 62; angleout := 58 |}) as [A B]. split; [apply A; cbn; lra|]. apply B; [cbn; lra|exact X].
Qed.
(* the distance from the position of the motor *)
Theorem C85_motor : forall m p z, pos m = Some p -> zero m = Some z -> distance m = Ok (Number (sign m * (p + z))).
Proof. exact distance_spec. Qed.
Print Assumptions C85_motor.
(* a distance that is set is read back; the calibration stays *)
Theorem C85_set_distance : forall m z v, (sign m = 1 \/ sign m = -1) -> zero m = Some z -> exists m', set_distance (Some v) m = Ok m' /\ distance m' = Ok (Number (quantity 1 v)) /\ zero m' = zero m /\ sign m' = sign m /\ unit m' = unit m /\ area m' = area m.
Proof. exact distance_set. Qed.
Print Assumptions C85_set_distance.
(* a position that is set is read back in its unit *)
Theorem C85_set_position : forall m x, unit m <> 0 -> detectorposition (set_detectorposition (Some (Plain x)) m) = Ok x /\ detectorposition (set_detectorposition (Some (Cm x)) m) = Ok (x / unit m) /\ zero (set_detectorposition (Some (Plain x)) m) = zero m.
Proof. exact position_set. Qed.
Print Assumptions C85_set_position.
(* after calibration with a distance, that is the distance at the same position *)
Theorem C85_calibrated : forall m p v, (sign m = 1 \/ sign m = -1) -> pos m = Some p -> exists m', calibrate_manually v m = Ok m' /\ distance m' = Ok (Number (quantity 1 v)) /\ pos m' = pos m /\ sign m' = sign m /\ unit m' = unit m.
Proof. exact calibrated. Qed.
Print Assumptions C85_calibrated.
(* a solid angle that is set is read back *)
Theorem C85_set_solidangle : forall m z a s, (sign m = 1 \/ sign m = -1) -> zero m = Some z -> area m = Some a -> 0 < a -> 0 < s < 2 * PI -> exists m' d, set_solidangle s m = Ok m' /\ solidangle m' = Ok s /\ distance m' = Ok (Number d) /\ 0 < d.
Proof. exact solidangle_set. Qed.
Print Assumptions C85_set_solidangle.
Example C85_motor_ex : let m := {| sign := -1; zero := Some (-5); pos := Some 1; unit := mm; area := None |} in
  distance m = Ok (Number 4) /\ detectorposition m = Ok 10 /\ exists m', set_distance (Some (Plain 3)) m = Ok m' /\ detectorposition m' = Ok 20.
Proof.
  cbv zeta. split; [cbn; do 2 f_equal; lra|]. split; [cbn; f_equal; unfold mm; lra|]. eexists. split; [reflexivity|]. cbn. f_equal. unfold mm. lra.
Qed.
(* what is unknown raises *)
Theorem C85_motor_errors : forall m v, (zero m = None -> set_distance (Some v) m = Err TypeError) /\ (pos m = None -> calibrate_manually v m = Err AttributeError /\ detectorposition m = Err AttributeError) /\ (zero m = None -> pos m <> None -> distance m = Err TypeError).
Proof. exact motor_errors. Qed.
Print Assumptions C85_motor_errors.
(* without a position the distance is a dictionary, and the geometry cannot be saved *)
Theorem C85_unknown_refuted : forall m, pos m = None -> distance m = Ok Dictionary /\ solidangle m = Err TypeError /\ getstate m = Err AttributeError.
Proof. exact unknown_position. Qed.
Print Assumptions C85_unknown_refuted.
(* a saved geometry is restored *)
Theorem C85_restored : forall m p z, (sign m = 1 \/ sign m = -1) -> unit m <> 0 -> pos m = Some p -> zero m = Some z -> exists s, getstate m = Ok s /\ setstate s = Ok m.
Proof. exact restored. Qed.
Print Assumptions C85_restored.
(* the constructor: from a position, or from a distance *)
Theorem C85_built : forall p z u sg d a, u <> 0 -> (exists m, linear_init (Some p) (Some z) u sg None false a = Ok m /\ distance m = Ok (Number (sg * (quantity u p + quantity u z))))
  /\ (sg = 1 \/ sg = -1 -> exists m, linear_init (Some p) (Some z) u sg (Some d) false a = Ok m /\ distance m = Ok (Number (quantity 1 d)))
  /\ linear_init (Some p) None u sg (Some d) false a = Err TypeError.
Proof. exact built. Qed.
Print Assumptions C85_built.
(* the presets: a plain zero distance is in mm whatever the unit of the position *)
Theorem C85_preset : forall p kpos kzero kunit kps a, exists m, preset_init p kpos kzero kunit kps None None a = Ok m /\ sign m = psign p /\ unit m = match kunit with Some u => u | None => mm end
  /\ zero m = Some (quantity mm (match kzero with Some z => z | None => Plain (pzero p) end))
  /\ pos m = Some (quantity (if posmm p then mm else match kunit with Some u => u | None => mm end) (match kpos with Some x => x | None => Plain (ppos p) end)).
Proof. exact preset_built. Qed.
Print Assumptions C85_preset.
(* the distances of the presets in cm *)
Theorem C85_preset_distances : forall p d, In (p, d) [(sxm120, 57 / 10); (sxm90, 85571 / 10000); (microdiff, 46667 / 10000); (ID16b_Virtual1, 2)] -> forall a, exists m, preset_init p None None None None None None a = Ok m /\ distance m = Ok (Number d).
Proof. exact preset_distances. Qed.
Print Assumptions C85_preset_distances.
(* the sign of a preset cannot be chosen: under its name it is refused, and positionsign is ignored (C85_preset) *)
Theorem C85_preset_sign_refuted : forall p kpos kzero kunit kps s a, preset_init p kpos kzero kunit kps (Some s) None a = Err TypeError.
Proof. exact preset_sign. Qed.
Print Assumptions C85_preset_sign_refuted.
(* a plain zero distance of 1 with positions in cm: 1 cm in general, 1 mm for a preset *)
Theorem C85_preset_unit_refuted : exists m m', linear_init (Some (Plain 0)) (Some (Plain 1)) 1 1 None false None = Ok m /\ zero m = Some 1 /\ preset_init sxm120 (Some (Plain 0)) (Some (Plain 1)) (Some 1) None None None None = Ok m' /\ zero m' <> Some 1.
Proof. exact preset_unit. Qed.
Print Assumptions C85_preset_unit_refuted.

(* a zero distance without unit is in cm, whatever the unit of the motor *)
Theorem C85_zerodistance : forall m p x, pos m = Some p ->
  distance (set_zerodistance (Some (Plain x)) m) = Ok (Number (sign m * (p + x))) /\ distance (set_zerodistance (Some (Cm x)) m) = Ok (Number (sign m * (p + x))) /\
  distance (set_zerodistance None m) = Err TypeError.
Proof. exact zerodistance_set. Qed.
Print Assumptions C85_zerodistance.
(* setting no distance forgets the position *)
Theorem C85_distance_unset : forall m, exists m', set_distance None m = Ok m' /\ distance m' = Ok Dictionary /\ pos m' = None /\ zero m' = zero m /\ sign m' = sign m /\ unit m' = unit m.
Proof. exact distance_unset. Qed.
Print Assumptions C85_distance_unset.
(* a state that was saved without a distance cannot be loaded *)
Theorem C85_unsaved : forall s, s_distance s = Dictionary -> setstate s = Err TypeError.
Proof. exact unsaved. Qed.
Print Assumptions C85_unsaved.
