From Coq Require Import Reals Lra Psatz.
From Verif Require Import GeomModel.
Local Open Scope R_scope.

Lemma PIpos : 0 < PI. Proof. exact PI_RGT_0. Qed.
Section Cone.
Variables (a d : R).
Hypothesis A : 0 < a.
Let r2 := a / PI.
Let h := sqrt (r2 + d * d).
Lemma r2_pos : 0 < r2. Proof. subst r2. apply Rdiv_lt_0_compat; [exact A|exact PIpos]. Qed.
Lemma h_sq : h * h = r2 + d * d. Proof. subst h. apply sqrt_sqrt. pose proof r2_pos. nra. Qed.
Lemma h_pos : 0 < h. Proof. subst h. apply sqrt_lt_R0. pose proof r2_pos. nra. Qed.
Lemma ratio_sq : (d / h) * (d / h) = d * d / (r2 + d * d). Proof. rewrite <- h_sq. pose proof h_pos. field. lra. Qed.
Lemma ratio_lt : -1 < d / h < 1.
Proof.
  pose proof h_pos. pose proof h_sq. pose proof r2_pos. assert (E : d = d / h * h) by (field; lra). set (q := d / h) in *. assert (Q : (q * h) * (q * h) < h * h) by (rewrite <- E; nra). assert (q * q < 1) by nra. nra.
Qed.
Lemma cone_cos s : s = 2 * PI * (1 - d / h) -> 1 - s / (2 * PI) = d / h.
Proof. intros ->. pose proof PIpos. pose proof h_pos. field. split; lra. Qed.
End Cone.
Lemma Rabs_sqrt x : sqrt (x * x) = Rabs x. Proof. exact (sqrt_Rsqr_abs x). Qed.
Theorem cone_inverse : forall a d, 0 < a -> 0 < d -> exists s, solidangle_calc (Some a) (Some d) None = Ok s /\ 0 < s < 2 * PI /\ solidangle_calc (Some a) None (Some s) = Ok d /\ solidangle_calc None (Some d) (Some s) = Ok a.
Proof.
  intros a d A D. pose proof PIpos as P. eexists. split; [reflexivity|]. pose proof (ratio_lt a d A) as Q. pose proof (h_pos a d A) as H. pose proof (ratio_sq a d A) as S. pose proof (r2_pos a A) as R2. cbv zeta in *. split.
  - assert (0 < d / sqrt (a / PI + d * d)) by (now apply Rdiv_lt_0_compat). nra.
  - assert (C : 1 - 2 * PI * (1 - d / sqrt (a / PI + d * d)) / (2 * PI) = d / sqrt (a / PI + d * d)) by (apply cone_cos with (1 := A); reflexivity). unfold solidangle_calc. cbv zeta. rewrite !C. rewrite !S. split; apply (f_equal Ok).
    + replace (a / PI * (d * d / (a / PI + d * d)) / (1 - d * d / (a / PI + d * d))) with (d * d) by (field; repeat split; nra). rewrite Rabs_sqrt. apply Rabs_pos_eq. lra.
    + field. repeat split; nra.
Qed.
Lemma sqrt_unique x y : 0 <= y -> y * y = x -> sqrt x = y.
Proof. intros Y <-. rewrite Rabs_sqrt. now apply Rabs_pos_eq. Qed.
Theorem distance_inverse : forall a s, 0 < a -> 0 < s < 2 * PI -> exists d, solidangle_calc (Some a) None (Some s) = Ok d /\ 0 < d /\ solidangle_calc (Some a) (Some d) None = Ok s.
Proof.
  intros a s A S. pose proof PIpos as P. set (c := 1 - s / (2 * PI)). assert (C : 0 < c < 1).
  { subst c. assert (E : s = s / (2 * PI) * (2 * PI)) by (field; lra). set (q := s / (2 * PI)) in *. nra. }
  pose proof (r2_pos a A) as R2. assert (K : 0 < a / PI * (c * c) / (1 - c * c)) by (apply Rdiv_lt_0_compat; [apply Rmult_lt_0_compat; nra|nra]).
  exists (sqrt (a / PI * (c * c) / (1 - c * c))). split; [reflexivity|]. split; [now apply sqrt_lt_R0|]. unfold solidangle_calc. apply (f_equal Ok). rewrite sqrt_sqrt by lra.
  set (r2 := a / PI) in *. replace (r2 + r2 * (c * c) / (1 - c * c)) with (r2 / (1 - c * c)) by (field; nra).
  assert (Q : sqrt (r2 * (c * c) / (1 - c * c)) / sqrt (r2 / (1 - c * c)) = c).
  { rewrite <- sqrt_div by (try (apply Rlt_le; exact K); apply Rdiv_lt_0_compat; nra). apply sqrt_unique; [lra|]. field. split; nra. }
  rewrite Q. subst c. field. lra.
Qed.
Theorem cone_angle : forall a d s, 0 < a -> 0 < d -> solidangle_calc (Some a) (Some d) None = Ok s -> exists theta, 0 < theta < PI / 2 /\ d * tan theta = sqrt (a / PI) /\ s = 2 * PI * (1 - cos theta).
Proof.
  intros a d s A D E. pose proof PIpos as P. pose proof (r2_pos a A) as R2. cbv zeta in R2. assert (E' : s = 2 * PI * (1 - d / sqrt (a / PI + d * d))) by (unfold solidangle_calc in E; congruence). clear E. set (r2 := a / PI) in *. assert (RP : 0 < sqrt r2) by (now apply sqrt_lt_R0). set (r := sqrt r2) in *. assert (RR : r * r = r2) by (apply sqrt_sqrt; lra).
  exists (atan (r / d)). assert (X : 0 < r / d) by (now apply Rdiv_lt_0_compat). split; [split; [rewrite <- atan_0; now apply atan_increasing|apply atan_bound]|]. split; [rewrite tan_atan; field; lra|]. rewrite E'. rewrite cos_atan. f_equal. f_equal. unfold Rsqr. replace (1 + r / d * (r / d)) with ((r2 + d * d) / (d * d)) by (rewrite <- RR; field; lra). rewrite sqrt_div by nra. rewrite Rabs_sqrt, Rabs_pos_eq by lra. field. split; [lra|apply Rgt_not_eq, sqrt_lt_R0; nra].
Qed.
Lemma ratio_mono r1 r2 d1 d2 : 0 < r1 -> r1 <= r2 -> 0 < d2 -> d2 <= d1 -> d2 / sqrt (r2 + d2 * d2) <= d1 / sqrt (r1 + d1 * d1).
Proof.
  intros R1 R2 D2 D1. set (h1 := sqrt (r1 + d1 * d1)). set (h2 := sqrt (r2 + d2 * d2)). assert (H1 : 0 < h1) by (apply sqrt_lt_R0; nra). assert (H2 : 0 < h2) by (apply sqrt_lt_R0; nra). assert (S1 : h1 * h1 = r1 + d1 * d1) by (apply sqrt_sqrt; nra). assert (S2 : h2 * h2 = r2 + d2 * d2) by (apply sqrt_sqrt; nra).
  assert (K : d2 * h1 <= d1 * h2).
  { apply Rsqr_incr_0_var; [|apply Rmult_le_pos; lra]. unfold Rsqr. replace (d2 * h1 * (d2 * h1)) with (d2 * d2 * (h1 * h1)) by ring. replace (d1 * h2 * (d1 * h2)) with (d1 * d1 * (h2 * h2)) by ring. rewrite S1, S2. assert (d2 * d2 <= d1 * d1) by nra. assert (d2 * d2 * r1 <= d1 * d1 * r2) by (apply Rmult_le_compat; nra). nra. }
  apply Rmult_le_reg_r with (h1 * h2); [now apply Rmult_lt_0_compat|]. replace (d2 / h2 * (h1 * h2)) with (d2 * h1) by (field; lra). replace (d1 / h1 * (h1 * h2)) with (d1 * h2) by (field; lra). exact K.
Qed.
Theorem cone_mono : forall a1 a2 d1 d2 s1 s2, 0 < a1 -> a1 <= a2 -> 0 < d2 -> d2 <= d1 -> solidangle_calc (Some a1) (Some d1) None = Ok s1 -> solidangle_calc (Some a2) (Some d2) None = Ok s2 -> s1 <= s2.
Proof.
  intros a1 a2 d1 d2 s1 s2 A1 A2 D2 D1 E1 E2. pose proof PIpos as P. assert (s1 = 2 * PI * (1 - d1 / sqrt (a1 / PI + d1 * d1))) by (unfold solidangle_calc in E1; congruence). assert (s2 = 2 * PI * (1 - d2 / sqrt (a2 / PI + d2 * d2))) by (unfold solidangle_calc in E2; congruence). subst s1 s2.
  apply Rmult_le_compat_l; [lra|]. assert (L : d2 / sqrt (a2 / PI + d2 * d2) <= d1 / sqrt (a1 / PI + d1 * d1)); [|lra]. apply ratio_mono; [now apply r2_pos| |exact D2|exact D1]. apply Rmult_le_compat_r; [left; now apply Rinv_0_lt_compat|exact A2].
Qed.
Theorem cone_behind : forall a d, 0 < a -> d < 0 -> exists s, solidangle_calc (Some a) (Some d) None = Ok s /\ 2 * PI < s < 4 * PI /\ solidangle_calc (Some a) None (Some s) = Ok (- d).
Proof.
  intros a d A D. pose proof PIpos as P. eexists. split; [reflexivity|]. pose proof (ratio_lt a d A) as Q. pose proof (h_pos a d A) as H. pose proof (ratio_sq a d A) as S. pose proof (r2_pos a A) as R2. cbv zeta in *. split.
  - assert (d / sqrt (a / PI + d * d) < 0) by (unfold Rdiv; pose proof (Rinv_0_lt_compat _ H); nra). nra.
  - assert (C : 1 - 2 * PI * (1 - d / sqrt (a / PI + d * d)) / (2 * PI) = d / sqrt (a / PI + d * d)) by (apply cone_cos with (1 := A); reflexivity). unfold solidangle_calc. cbv zeta. rewrite !C. rewrite !S. apply (f_equal Ok).
    replace (a / PI * (d * d / (a / PI + d * d)) / (1 - d * d / (a / PI + d * d))) with (d * d) by (field; repeat split; nra). rewrite Rabs_sqrt. now apply Rabs_left.
Qed.
Theorem cone_errors : forall a d s, solidangle_calc (Some a) (Some d) (Some s) = Err RuntimeError /\ (forall x, solidangle_calc None x None = Err TypeError) /\ (forall x, solidangle_calc x None None = Err TypeError) /\ solidangle_calc None None (Some s) = Err TypeError.
Proof. intros a d s. split; [reflexivity|]. split; [now intros [x|]|]. split; [now intros [x|]|reflexivity]. Qed.

(* ---- angles ---- *)
Theorem angles_spec : forall g, cosnormin g = sin (radians (anglein g)) /\ cosnormout g = - sin (radians (angleout g)) /\ scatteringangle g = anglenormout g - anglenormin g.
Proof.
  intros g. unfold cosnormin, cosnormout, anglenormin, anglenormout, scatteringangle, radians. split; [|split; [|lra]].
  - rewrite <- cos_shift. f_equal. lra.
  - rewrite sin_cos. rewrite Ropp_involutive. f_equal. lra.
Qed.
Theorem angles_sign : forall g, (0 < anglein g <= 90 -> 0 < cosnormin g <= 1) /\ (-90 <= angleout g <= 90 -> (reflection g <-> cosnormout g < 0)).
Proof.
  intros g. destruct (angles_spec g) as (I & O & _). rewrite I, O. clear I O. pose proof PIpos as P. unfold radians, reflection. split.
  - intros H. split; [apply sin_gt_0; nra|apply SIN_bound].
  - intros H. split; intros K.
    + assert (0 < sin (angleout g * PI / 180)); [apply sin_gt_0; nra|lra].
    + destruct (Rlt_dec 0 (angleout g)) as [L|L]; [exact L|]. exfalso. assert (sin (angleout g * PI / 180) <= 0); [|lra]. assert (X : 0 <= sin (- (angleout g * PI / 180))) by (apply sin_ge_0; nra). rewrite sin_neg in X. lra.
Qed.
Theorem angles_set : forall g v, anglenormin (set_anglenormin v g) = v /\ anglenormout (set_anglenormin v g) = anglenormout g /\ anglenormout (set_anglenormout v g) = v /\ anglenormin (set_anglenormout v g) = anglenormin g.
Proof. intros g v. unfold anglenormin, anglenormout, set_anglenormin, set_anglenormout. cbn. repeat split; lra. Qed.

(* ---- motor ---- *)
Definition unit_sign (m : motor) : Prop := sign m = 1 \/ sign m = -1.
Lemma sign_sq m x : unit_sign m -> sign m * (sign m * x) = x.
Proof. intros [-> | ->]; lra. Qed.
Theorem distance_spec : forall m p z, pos m = Some p -> zero m = Some z -> distance m = Ok (Number (sign m * (p + z))).
Proof. intros m p z P Z. unfold distance. rewrite P, Z. reflexivity. Qed.
Theorem distance_set : forall m z v, unit_sign m -> zero m = Some z -> exists m', set_distance (Some v) m = Ok m' /\ distance m' = Ok (Number (quantity 1 v)) /\ zero m' = zero m /\ sign m' = sign m /\ unit m' = unit m /\ area m' = area m.
Proof.
  intros m z v S Z. unfold set_distance. rewrite Z. eexists. split; [reflexivity|]. cbn [set_pos zero sign unit area]. split; [|repeat split; exact Z]. unfold distance. cbn [pos set_pos zero]. rewrite Z. cbn [distancecalc sign]. apply (f_equal Ok), (f_equal Number). cbn [set_pos set_zero sign]. transitivity (sign m * (sign m * quantity 1 v)); [ring|now apply sign_sq].
Qed.
Theorem position_set : forall m x, unit m <> 0 -> detectorposition (set_detectorposition (Some (Plain x)) m) = Ok x /\ detectorposition (set_detectorposition (Some (Cm x)) m) = Ok (x / unit m) /\ zero (set_detectorposition (Some (Plain x)) m) = zero m.
Proof. intros m x U. unfold detectorposition, set_detectorposition. cbn. split; [|split; reflexivity]. apply (f_equal Ok). now field. Qed.
Theorem calibrated : forall m p v, unit_sign m -> pos m = Some p -> exists m', calibrate_manually v m = Ok m' /\ distance m' = Ok (Number (quantity 1 v)) /\ pos m' = pos m /\ sign m' = sign m /\ unit m' = unit m.
Proof.
  intros m p v S P. unfold calibrate_manually. rewrite P. cbn [bind distancecalc]. rewrite P. cbn [bind]. eexists. split; [reflexivity|]. unfold distance. cbn [set_zero pos zero]. rewrite P. cbn [distancecalc sign]. split; [|repeat split]. apply (f_equal Ok), (f_equal Number). cbn [set_pos set_zero sign]. transitivity (sign m * (sign m * quantity 1 v)); [ring|now apply sign_sq].
Qed.
Theorem solidangle_set : forall m z a s, unit_sign m -> zero m = Some z -> area m = Some a -> 0 < a -> 0 < s < 2 * PI -> exists m' d, set_solidangle s m = Ok m' /\ solidangle m' = Ok s /\ distance m' = Ok (Number d) /\ 0 < d.
Proof.
  intros m z a s S Z A AP SP. destruct (distance_inverse a s AP SP) as (d & E1 & D & E2). destruct (distance_set m z (Cm d) S Z) as (m' & M & DM & _ & _ & _ & AM). exists m', d. unfold set_solidangle. rewrite A, E1. cbn [bind]. split; [exact M|]. split; [|split; [exact DM|exact D]]. unfold solidangle. rewrite DM, AM, A. exact E2.
Qed.
Theorem motor_errors : forall m v, (zero m = None -> set_distance (Some v) m = Err TypeError) /\ (pos m = None -> calibrate_manually v m = Err AttributeError /\ detectorposition m = Err AttributeError) /\ (zero m = None -> pos m <> None -> distance m = Err TypeError).
Proof.
  intros m v. split; [intros Z; unfold set_distance; now rewrite Z|]. split; [intros P; unfold calibrate_manually, detectorposition; rewrite P; now split|]. intros Z P. unfold distance. destruct (pos m) as [p|]; [|congruence]. now rewrite Z.
Qed.
Theorem unknown_position : forall m, pos m = None -> distance m = Ok Dictionary /\ solidangle m = Err TypeError /\ getstate m = Err AttributeError.
Proof. intros m P. unfold solidangle, getstate, distance, detectorposition. rewrite P. repeat split. Qed.
Theorem restored : forall m p z, unit_sign m -> unit m <> 0 -> pos m = Some p -> zero m = Some z -> exists s, getstate m = Ok s /\ setstate s = Ok m.
Proof.
  intros [sg ze po un ar] p z S U P Z. cbn in *. subst po ze. eexists. split; [reflexivity|]. unfold setstate. cbn [s_distance s_sign s_zero s_kwpos s_pos s_unit s_area]. unfold set_distance. cbn [distancecalc bind zero sign]. unfold set_detectorposition, set_pos. cbn. do 3 f_equal. match goal with |- ?a = ?b => change (@eq R a b) end. now field.
Qed.
Theorem built : forall p z u sg d a, u <> 0 -> (exists m, linear_init (Some p) (Some z) u sg None false a = Ok m /\ distance m = Ok (Number (sg * (quantity u p + quantity u z))))
  /\ (sg = 1 \/ sg = -1 -> exists m, linear_init (Some p) (Some z) u sg (Some d) false a = Ok m /\ distance m = Ok (Number (quantity 1 d)))
  /\ linear_init (Some p) None u sg (Some d) false a = Err TypeError.
Proof.
  intros p z u sg d a U. split; [eexists; split; [reflexivity|reflexivity]|]. split; [|reflexivity]. intros S. unfold linear_init. cbv zeta. destruct (distance_set {| sign := sg; zero := Some (quantity u z); pos := None; unit := u; area := a |} _ d S eq_refl) as (m & M & D & _). rewrite M. cbn [bind]. exists m. split; [reflexivity|exact D].
Qed.
Theorem preset_built : forall p kpos kzero kunit kps a, exists m, preset_init p kpos kzero kunit kps None None a = Ok m /\ sign m = psign p /\ unit m = match kunit with Some u => u | None => mm end
  /\ zero m = Some (quantity mm (match kzero with Some z => z | None => Plain (pzero p) end))
  /\ pos m = Some (quantity (if posmm p then mm else match kunit with Some u => u | None => mm end) (match kpos with Some x => x | None => Plain (ppos p) end)).
Proof. intros p kpos kzero kunit kps a. unfold preset_init. cbv zeta. eexists. split; [reflexivity|]. repeat split. cbn. destruct (posmm p); reflexivity. Qed.
Theorem preset_distances : forall p d, In (p, d) [(sxm120, 57 / 10); (sxm90, 85571 / 10000); (microdiff, 46667 / 10000); (ID16b_Virtual1, 2)] -> forall a, exists m, preset_init p None None None None None None a = Ok m /\ distance m = Ok (Number d).
Proof.
  intros p d H a. cbn [In] in H. destruct H as [H|[H|[H|[H|[]]]]]; assert (p = fst (p, d)) as Hp by reflexivity; assert (d = snd (p, d)) as Hd by reflexivity; rewrite <- H in Hp, Hd; cbn [fst snd] in Hp, Hd; clear H; subst p d; eexists; (split; [reflexivity|]); cbn; do 2 f_equal; unfold mm; lra.
Qed.
Theorem preset_sign : forall p kpos kzero kunit kps s a, preset_init p kpos kzero kunit kps (Some s) None a = Err TypeError.
Proof. reflexivity. Qed.
Theorem preset_unit : exists m m', linear_init (Some (Plain 0)) (Some (Plain 1)) 1 1 None false None = Ok m /\ zero m = Some 1 /\ preset_init sxm120 (Some (Plain 0)) (Some (Plain 1)) (Some 1) None None None None = Ok m' /\ zero m' <> Some 1.
Proof.
  eexists _, _. split; [reflexivity|]. split; [cbn; f_equal; lra|]. split; [reflexivity|]. cbn. intros H. assert (X : 1 * mm = 1) by congruence. unfold mm in X. lra.
Qed.
Theorem zerodistance_set : forall m p x, pos m = Some p ->
  distance (set_zerodistance (Some (Plain x)) m) = Ok (Number (sign m * (p + x))) /\ distance (set_zerodistance (Some (Cm x)) m) = Ok (Number (sign m * (p + x))) /\
  distance (set_zerodistance None m) = Err TypeError.
Proof. intros m p x P. unfold distance. cbn [set_zerodistance set_zero pos zero quantity]. rewrite P. cbn [distancecalc sign set_zero]. rewrite ?Rmult_1_r. repeat split. Qed.
Theorem distance_unset : forall m, exists m', set_distance None m = Ok m' /\ distance m' = Ok Dictionary /\ pos m' = None /\ zero m' = zero m /\ sign m' = sign m /\ unit m' = unit m.
Proof. intros m. eexists. split; [reflexivity|]. repeat split. Qed.
Theorem unsaved : forall s, s_distance s = Dictionary -> setstate s = Err TypeError.
Proof. intros s E. unfold setstate. now rewrite E. Qed.
