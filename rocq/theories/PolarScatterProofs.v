From Verif Require Import PolarModel PolarSpec PolarProofs.
From Coq Require Import Lra Lia.
Local Open Scope R_scope.

Section Real.
Variables eps el : R.
Notation N := (reals eps el).

(* ---- angles ---- *)
Lemma cs1 x : cosine x * cosine x + sine x * sine x = 1.
Proof. unfold cosine, sine. pose proof (sin2_cos2 (x * PI / 180)) as H. unfold Rsqr in H. lra. Qed.
Lemma cos_double x : cosine (2 * x) = cosine x * cosine x - sine x * sine x.
Proof. unfold cosine, sine. replace (2 * x * PI / 180) with (2 * (x * PI / 180)) by field. apply cos_2a. Qed.
Lemma sin_double x : sine (2 * x) = 2 * sine x * cosine x.
Proof. unfold cosine, sine. replace (2 * x * PI / 180) with (2 * (x * PI / 180)) by field. apply sin_2a. Qed.
Lemma cosine_neg x : cosine (- x) = cosine x.
Proof. unfold cosine. replace (- x * PI / 180) with (- (x * PI / 180)) by field. apply cos_neg. Qed.
Lemma sine_neg x : sine (- x) = - sine x.
Proof. unfold sine. replace (- x * PI / 180) with (- (x * PI / 180)) by field. apply sin_neg. Qed.
Lemma cosine_plus x y : cosine (x + y) = cosine x * cosine y - sine x * sine y.
Proof. unfold cosine, sine. replace ((x + y) * PI / 180) with (x * PI / 180 + y * PI / 180) by field. apply cos_plus. Qed.
Lemma sine_plus x y : sine (x + y) = sine x * cosine y + cosine x * sine y.
Proof. unfold cosine, sine. replace ((x + y) * PI / 180) with (x * PI / 180 + y * PI / 180) by field. apply sin_plus. Qed.
Lemma cosine_180 : cosine 180 = -1. Proof. unfold cosine. replace (180 * PI / 180) with PI by field. apply cos_PI. Qed.
Lemma sine_180 : sine 180 = 0. Proof. unfold sine. replace (180 * PI / 180) with PI by field. apply sin_PI. Qed.
Lemma cosine_0 : cosine 0 = 1. Proof. unfold cosine. replace (0 * PI / 180) with 0 by field. apply cos_0. Qed.
Lemma cosine_bound x : -1 <= cosine x <= 1. Proof. unfold cosine. apply COS_bound. Qed.

(* ---- rotation ---- *)
Lemma rotate_form (v w : R * R) a : @rotate N (v, w) a = Ok
  ((cosine a * fst v + sine a * fst w, cosine a * snd v + sine a * snd w), (- sine a * fst v + cosine a * fst w, - sine a * snd v + cosine a * snd w)).
Proof.
  destruct v as [v1 v2], w as [w1 w2]. plain. change (cos (- a * PI / 180)) with (cosine (- a)). change (sin (- a * PI / 180)) with (sine (- a)). rewrite cosine_neg, sine_neg. entries; ring.
Qed.
Lemma rotate_stokes_form S0 S1 S2 S3 a : @rotate_stokes N (S0, S1, S2, S3) a = Ok
  (S0, cosine (2 * a) * S1 + sine (2 * a) * S2, - sine (2 * a) * S1 + cosine (2 * a) * S2, S3).
Proof.
  plain. change (cos ((1 + 1) * - a * PI / 180)) with (cosine ((1 + 1) * - a)). change (sin ((1 + 1) * - a * PI / 180)) with (sine ((1 + 1) * - a)).
  replace ((1 + 1) * - a) with (- (2 * a)) by ring. rewrite cosine_neg, sine_neg. entries; ring.
Qed.
Theorem rotate_commutes : forall J a, exists J', @rotate N J a = Ok J' /\ @rotate_stokes N (stokes_def J) a = Ok (stokes_def J').
Proof.
  intros [v w] a. eexists. split; [apply rotate_form|]. unfold stokes_def at 1. rewrite rotate_stokes_form, cos_double, sin_double. pose proof (cs1 a) as H.
  destruct v as [v1 v2], w as [w1 w2]. unfold stokes_def, modulus2, cross. cbn [fst snd]. set (c := cosine a) in *. set (s := sine a) in *. clearbody c s. entries; try ring.
  replace (v1 ^ 2 + v2 ^ 2 + (w1 ^ 2 + w2 ^ 2)) with ((c * c + s * s) * (v1 ^ 2 + v2 ^ 2 + (w1 ^ 2 + w2 ^ 2))) by (rewrite H; ring). ring.
  transitivity ((c * c + s * s) * (2 * (w2 * v1 - w1 * v2))); [rewrite H|]; ring.
Qed.
Theorem rotate_twice : forall (S : R * R * R * R) a b, exists S', @rotate_stokes N S a = Ok S' /\ @rotate_stokes N S' b = @rotate_stokes N S (a + b).
Proof.
  intros [[[S0 S1] S2] S3] a b. eexists. split; [apply rotate_stokes_form|]. rewrite !rotate_stokes_form. replace (2 * (a + b)) with (2 * a + 2 * b) by ring. rewrite cosine_plus, sine_plus. entries; ring.
Qed.
Theorem rotate_keeps : forall (S : R * R * R * R) a, exists S', @rotate_stokes N S a = Ok S' /\ @intensity N S' = @intensity N S /\ @dop N S' = @dop N S /\ @dolp N S' = @dolp N S /\
  @docp N S' = @docp N S /\ @handedness N S' = @handedness N S /\ (physical S <-> physical S').
Proof.
  intros [[[S0 S1] S2] S3] a. eexists. split; [apply rotate_stokes_form|]. pose proof (cs1 (2 * a)) as H. set (c := cosine (2 * a)) in *. set (s := sine (2 * a)) in *. clearbody c s.
  assert (E : (c * S1 + s * S2) ^ 2 + (- s * S1 + c * S2) ^ 2 = S1 ^ 2 + S2 ^ 2) by (transitivity ((c * c + s * s) * (S1 ^ 2 + S2 ^ 2)); [ring|rewrite H; ring]).
  rewrite !dop_form, !dolp_form, E. unfold physical. rewrite E. repeat split; tauto.
Qed.
(* the angle turns along *)
Theorem rotate_angle : forall (S : R * R * R * R) a, lit S -> exists S0 S1 S2 S3, @rotate_stokes N S a = Ok (S0, S1, S2, S3) /\
  S1 = S0 * @dolp N S * cosine (2 * (@polangle N S - a)) /\ S2 = S0 * @dolp N S * sine (2 * (@polangle N S - a)).
Proof.
  intros [[[S0 S1] S2] S3] a L. cbn in L. do 4 eexists. split; [apply rotate_stokes_form|]. rewrite dolp_form.
  destruct (cos_polangle eps el S0 S1 S2 S3) as [A B]. unfold polangle in *. cbn [atan2d ndiv two n1 nadd nsub reals] in *. set (g := arctan2 S2 S1 * 180 / PI / (1 + 1)) in *. clearbody g. change (cosine (2 * g) = cos (arctan2 S2 S1)) in A. change (sine (2 * g) = sin (arctan2 S2 S1)) in B.
  replace (2 * (g - a)) with (2 * g + - (2 * a)) by (real; ring).
  rewrite cosine_plus, sine_plus, cosine_neg, sine_neg, A, B. destruct (arctan2_ok S1 S2) as [C D]. set (r := sqrt (S1 ^ 2 + S2 ^ 2)) in *. replace (S0 * (r / S0)) with r by (field; lra).
  set (x := cos (arctan2 S2 S1)) in *. set (y := sin (arctan2 S2 S1)) in *. clearbody x y r. rewrite <- C, <- D. split; real; ring.
Qed.

(* ---- scattering ---- *)
Lemma scatter_angle az : cosine (- (2 * (az - 90))) = - cosine (2 * az) /\ sine (- (2 * (az - 90))) = sine (2 * az).
Proof.
  replace (- (2 * (az - 90))) with (180 + - (2 * az)) by ring. rewrite cosine_plus, sine_plus, cosine_neg, sine_neg, cosine_180, sine_180. split; ring.
Qed.
Lemma thomson_form S0 S1 S2 S3 az po : @thomson N (S0, S1, S2, S3) az po = Ok
  (A_ po * S0 - B_ po * (cosine (2 * az) * S1 + sine (2 * az) * S2), B_ po * S0 - A_ po * (cosine (2 * az) * S1 + sine (2 * az) * S2),
   cosine po * (sine (2 * az) * S1 - cosine (2 * az) * S2), cosine po * S3).
Proof.
  plain. fold (cosine po). change (cos (- ((1 + 1) * (az - 90)) * PI / 180)) with (cosine (- ((1 + 1) * (az - 90)))). change (sin (- ((1 + 1) * (az - 90)) * PI / 180)) with (sine (- ((1 + 1) * (az - 90)))).
  replace (1 + 1) with 2 by ring. destruct (scatter_angle az) as [-> ->]. unfold A_, B_. entries; field.
Qed.
Lemma compton_form S0 S1 S2 S3 az po E : let k := E / el in k <> 0 -> 1 + k * (1 - cosine po) <> 0 -> @compton N (S0, S1, S2, S3) az po E = Ok
  (ratio k po ^ 2 * ((A_ po + extra k po) * S0 - B_ po * (cosine (2 * az) * S1 + sine (2 * az) * S2)), ratio k po ^ 2 * (B_ po * S0 - A_ po * (cosine (2 * az) * S1 + sine (2 * az) * S2)),
   ratio k po ^ 2 * (cosine po * (sine (2 * az) * S1 - cosine (2 * az) * S2)), ratio k po ^ 2 * (cosine po * (1 + extra k po) * S3)).
Proof.
  intros k K D. plain. fold k. clearbody k. fold (cosine po). change (cos (- ((1 + 1) * (az - 90)) * PI / 180)) with (cosine (- ((1 + 1) * (az - 90)))). change (sin (- ((1 + 1) * (az - 90)) * PI / 180)) with (sine (- ((1 + 1) * (az - 90)))).
  replace (1 + 1) with 2 by ring. destruct (scatter_angle az) as [-> ->]. unfold A_, B_, extra, ratio. entries; field; auto.
Qed.

(* the wave that is made from a coherency matrix has the Stokes vector of that matrix *)
Lemma jones_same p q x y ph : 0 <= p -> 0 <= q -> x ^ 2 + y ^ 2 = p * q ->
  exists J', @coherency_to_jones N [[(p, 0); (x, - y)]; [(x, y); (q, 0)]] ph = Ok J' /\ stokes_def J' = (p + q, p - q, 2 * x, 2 * y).
Proof.
  intros P Q M. unfold coherency_to_jones. rewrite (proj2 (hermitian_iff eps el (p, 0) (x, - y) (x, y) (q, 0))) by (cbn [fst snd]; rewrite Ropp_involutive; auto).
  eexists. split; [reflexivity|]. cbn [fst]. rewrite !csqrt_ok by assumption. destruct (phase_ok eps el (x, y)) as [C D]. cbn [fst snd] in C, D.
  replace (sqrt (modulus2 (x, y))) with (sqrt p * sqrt q) in C, D by (rewrite <- sqrt_mult_alt by lra; f_equal; symmetry; exact M).
  pose proof (sqrt_sqrt p P) as SP. pose proof (sqrt_sqrt q Q) as SQ. unfold cmul, expi; cbn [fst snd nsub nadd nmul n0 cos_deg sin_deg reals].
  pose proof (cs1 ph) as H. assert (H' := cs1 (@phase N (x, y) : R)). unfold cosine, sine in H, H'.
  generalize dependent (@phase N (x, y)). intros g C D H'. replace ((g + ph) * PI / 180) with (g * PI / 180 + ph * PI / 180) by (real; field). rewrite cos_plus, sin_plus.
  set (c0 := cos (ph * PI / 180)) in *. set (s0 := sin (ph * PI / 180)) in *. set (c1 := cos (g * PI / 180)) in *. set (s1 := sin (g * PI / 180)) in *.
  set (rv := sqrt p) in *. set (rw := sqrt q) in *. clearbody c0 s0 c1 s1 rw rv. unfold stokes_def, modulus2, cross. cbn [fst snd].
  assert (E1 : (rv * c0 - 0 * s0) ^ 2 + (rv * s0 + 0 * c0) ^ 2 = p) by (transitivity (rv * rv * (c0 * c0 + s0 * s0)); [ring|rewrite SP, H; ring]).
  assert (E2 : (rw * (c1 * c0 - s1 * s0) - 0 * (s1 * c0 + c1 * s0)) ^ 2 + (rw * (s1 * c0 + c1 * s0) + 0 * (c1 * c0 - s1 * s0)) ^ 2 = q)
    by (transitivity (rw * rw * (c1 * c1 + s1 * s1) * (c0 * c0 + s0 * s0)); [ring|rewrite SQ, H, H'; ring]).
  entries; [rewrite E1, E2; ring|rewrite E1, E2; ring| |].
  - transitivity (2 * (rv * rw * c1) * (c0 * c0 + s0 * s0)); [ring|rewrite C, H; ring].
  - transitivity (2 * (rv * rw * s1) * (c0 * c0 + s0 * s0)); [ring|rewrite D, H; ring].
Qed.
(* from Stokes to Jones and back, whatever the phase that is chosen *)
Theorem stokes_roundtrip : forall (S : R * R * R * R) loss ph, lit S -> @dop N S = 1 -> exists J, @to_jones N S loss ph = Ok J /\ stokes_def J = S.
Proof.
  intros [[[S0 S1] S2] S3] loss ph L D. cbn in L. unfold to_jones. rewrite D. cbn [nsub n1 n0 eqb reals]. destruct (Req_EM_T (1 - 1) 0) as [_|X]; [|lra]. cbn [bind].
  rewrite dop_form in D. assert (E : sqrt (S1 ^ 2 + S2 ^ 2 + S3 ^ 2) = S0) by (apply (Rmult_eq_compat_r S0) in D; field_simplify in D; lra).
  assert (F : S1 ^ 2 + S2 ^ 2 + S3 ^ 2 = S0 * S0) by (rewrite <- E; symmetry; apply sqrt_sqrt; nra).
  rewrite coherency_stokes_form.
  destruct (jones_same ((S0 + S1) / 2) ((S0 - S1) / 2) (S2 / 2) (S3 / 2) ph) as (J & HJ & HS); [nra|nra|nra|].
  exists J. split.
  - rewrite <- HJ. f_equal.
  - rewrite HS. entries; field.
Qed.
Theorem stokes_lossy : forall (S : R * R * R * R) ph, @dop N S <> 1 -> exists J, @to_jones N S true ph = Ok J /\ stokes_def J = fst (@decompose N S).
Proof.
  intros [[[S0 S1] S2] S3] ph D. unfold to_jones. cbn [nsub n1 n0 eqb reals]. destruct (Req_EM_T (@dop N (S0, S1, S2, S3) - 1) 0) as [X|_]; [exfalso; apply D; lra|]. cbn [bind].
  unfold decompose. cbn [fst]. rewrite polarized_form. set (t := sqrt (S1 ^ 2 + S2 ^ 2 + S3 ^ 2)). assert (T : 0 <= t) by apply sqrt_pos.
  assert (F : t * t = S1 ^ 2 + S2 ^ 2 + S3 ^ 2) by (apply sqrt_sqrt; nra). clearbody t.
  rewrite coherency_stokes_form.
  destruct (jones_same ((t + S1) / 2) ((t - S1) / 2) (S2 / 2) (S3 / 2) ph) as (J & HJ & HS); [nra|nra|nra|].
  exists J. split.
  - rewrite <- HJ. f_equal.
  - rewrite HS. entries; field.
Qed.
(* the scattered wave itself: along the scattering plane only its projection is left *)
Theorem thomson_wave : forall (v w : R * R) az po, let c := sine az in let s := - cosine az in
  let v' := (c * fst v + s * fst w, c * snd v + s * snd w) in let w' := (- s * fst v + c * fst w, - s * snd v + c * snd w) in
  v' <> (0, 0) -> @thomson_jones N (v, w) az po = Ok (v', (cosine po * fst w', cosine po * snd w')).
Proof.
  intros v w az po c s v' w' H. unfold thomson_jones. rewrite rotate_form. cbn [bind].
  assert (A : cosine (@ThomsonRotationAngle N az) = c /\ sine (@ThomsonRotationAngle N az) = s).
  { unfold c, s. plain. change (cosine (az - 90) = sine az /\ sine (az - 90) = - cosine az). assert (C90 : cosine 90 = 0) by (unfold cosine; replace (90 * PI / 180) with (PI / 2) by field; apply cos_PI2).
    assert (S90 : sine 90 = 1) by (unfold sine; replace (90 * PI / 180) with (PI / 2) by field; apply sin_PI2).
    replace (az - 90) with (az + - (90)) by ring. rewrite cosine_plus, sine_plus, cosine_neg, sine_neg, C90, S90. split; ring. }
  destruct A as [-> ->]. fold v' w'. set (t := cosine po). set (tw := (t * fst w', t * snd w')).
  assert (E : @cmat_mul N 2 (@cmat_mul N 2 (@cmat N (@JonesMatrixThomson N po)) (@coherency N (v', w'))) (@hermite N 2 (@cmat N (@JonesMatrixThomson N po))) = @coherency N (v', tw)).
  { rewrite !coherency_form. unfold tw, modulus2, cross. cbn [fst snd]. clearbody v' w'. destruct v' as [v1 v2], w' as [w1 w2]. unfold t, cosine. plain. entries; ring. }
  rewrite E. unfold phase0. cbn [fst]. now apply jones_back.
Qed.
Theorem thomson_commutes : forall (J : (R * R) * (R * R)) az po, exists J', @thomson_jones N J az po = Ok J' /\ @thomson N (stokes_def J) az po = Ok (stokes_def J').
Proof.
  intros [v w] az po. unfold thomson_jones. rewrite rotate_form. cbn [bind].
  set (a := @ThomsonRotationAngle N az). 
  set (v' := (cosine a * fst v + sine a * fst w, cosine a * snd v + sine a * snd w)). set (w' := (- sine a * fst v + cosine a * fst w, - sine a * snd v + cosine a * snd w)).
  set (t := cosine po). set (tw := (t * fst w', t * snd w')).
  assert (E : @cmat_mul N 2 (@cmat_mul N 2 (@cmat N (@JonesMatrixThomson N po)) (@coherency N (v', w'))) (@hermite N 2 (@cmat N (@JonesMatrixThomson N po))) =
    [[(modulus2 v', 0); (fst (cross v' tw), - snd (cross v' tw))]; [(fst (cross v' tw), snd (cross v' tw)); (modulus2 tw, 0)]]).
  { rewrite coherency_form. unfold tw, modulus2, cross. cbn [fst snd]. clearbody v' w'. destruct v' as [v1 v2], w' as [w1 w2]. unfold t, cosine. plain. entries; ring. }
  rewrite E. destruct (jones_same (modulus2 v') (modulus2 tw) (fst (cross v' tw)) (snd (cross v' tw)) (@phase0 N (v', w'))) as (J' & HJ & HS).
  - apply modulus2_nonneg.
  - apply modulus2_nonneg.
  - unfold modulus2, cross. cbn [fst snd]. ring.
  - exists J'. split; [exact HJ|]. rewrite HS. unfold stokes_def. rewrite thomson_form. fold t.
    replace (2 * az) with (2 * a + 180) by (unfold a; plain; ring). rewrite cosine_plus, sine_plus, cosine_180, sine_180, cos_double, sin_double. unfold A_, B_. fold t. pose proof (cs1 a) as H.
    unfold tw, v', w', modulus2, cross. cbn [fst snd]. destruct v as [v1 v2], w as [w1 w2]. cbn [fst snd]. set (c := cosine a) in *. set (s := sine a) in *. clearbody c s t.
    pose (n := v1 ^ 2 + v2 ^ 2 + (w1 ^ 2 + w2 ^ 2)). assert (HN : (c * c + s * s) * n = n) by (rewrite H; ring). unfold n in HN. clear n.
    entries.
    + rewrite <- HN at 1. field.
    + rewrite <- HN at 1. field.
    + ring.
    + transitivity (t * ((c * c + s * s) * (2 * (w2 * v1 - w1 * v2)))); [rewrite H|]; ring.
Qed.
(* scattered intensity *)
Theorem thomson_intensity_ok : forall (S : R * R * R * R) az po, lit S -> exists S', @thomson N S az po = Ok S' /\ @intensity N S' = @thomson_intensity N S az po.
Proof.
  intros [[[S0 S1] S2] S3] az po L. cbn in L. eexists. split; [apply thomson_form|]. unfold thomson_intensity, thomson_K, intensity, jonesnormsq_to_intensity, A_, B_, cosine, sine.
  cbn [eqb n0 n1 reals nmul nadd nsub ndiv sq two cos_deg sin_deg eps0_c]. replace (1 + 1) with 2 by ring.
  destruct (Req_EM_T S1 0) as [->|]; [destruct (Req_EM_T S2 0) as [->|]|]; cbn [andb]; real; field; lra.
Qed.
Theorem compton_intensity_ok : forall (S : R * R * R * R) az po E, lit S -> 0 < E -> 0 < el -> exists S', @compton N S az po E = Ok S' /\ @intensity N S' = @compton_intensity N S az po E.
Proof.
  intros [[[S0 S1] S2] S3] az po E L HE HL. cbn in L. assert (K : 0 < E / el) by (apply Rdiv_lt_0_compat; lra). pose proof (cosine_bound po) as CB. assert (D : 0 < 1 + E / el * (1 - cosine po)) by nra.
  eexists. split; [apply compton_form; lra|]. unfold compton_intensity, compton_K, kev_to_mc2, intensity, jonesnormsq_to_intensity, extra, ratio, A_, B_.
  cbn [eqb n0 n1 reals nmul nadd nsub ndiv sq two cos_deg sin_deg eps0_c electron]. replace (1 + 1) with 2 by ring. fold (cosine po). fold (cosine (2 * az)). fold (sine (2 * az)).
  set (k := E / el) in *. clearbody k.
  destruct (Req_EM_T S1 0) as [->|]; [destruct (Req_EM_T S2 0) as [->|]|]; cbn [andb]; real; field; lra.
Qed.
Lemma turn S1 S2 a : (cosine a * S1 + sine a * S2) ^ 2 + (sine a * S1 - cosine a * S2) ^ 2 = S1 ^ 2 + S2 ^ 2.
Proof. pose proof (cs1 a) as H. transitivity ((cosine a * cosine a + sine a * sine a) * (S1 ^ 2 + S2 ^ 2)); [ring|rewrite H; ring]. Qed.
Lemma abs_bound x y z w : 0 <= x -> y ^ 2 + z ^ 2 + w ^ 2 <= x ^ 2 -> - x <= y <= x /\ w ^ 2 <= x ^ 2 - y ^ 2.
Proof. intros. split; [split|]; nra. Qed.
Lemma thomson_identity t x y z w : ((1 + t ^ 2) / 2 * x - (1 - t ^ 2) / 2 * y) ^ 2 - (((1 - t ^ 2) / 2 * x - (1 + t ^ 2) / 2 * y) ^ 2 + (t * z) ^ 2 + (t * w) ^ 2) = t ^ 2 * (x ^ 2 - (y ^ 2 + z ^ 2 + w ^ 2)).
Proof. field. Qed.
Theorem thomson_physical : forall (S : R * R * R * R) az po, physical S -> exists S', @thomson N S az po = Ok S' /\ physical S'.
Proof.
  intros [[[S0 S1] S2] S3] az po [P Q]. eexists. split; [apply thomson_form|]. pose proof (turn S1 S2 (2 * az)) as T. unfold A_, B_. pose proof (cosine_bound po) as CB.
  set (y := cosine (2 * az) * S1 + sine (2 * az) * S2) in *. set (z := sine (2 * az) * S1 - cosine (2 * az) * S2) in *. set (t := cosine po) in *. clearbody y z t.
  destruct (abs_bound S0 y z S3 P ltac:(lra)) as [Y W]. pose proof (thomson_identity t S0 y z S3) as I. pose proof (pow2_ge_0 t) as T2. assert (T1 : t ^ 2 <= 1) by nra.
  split; [nra|]. assert (0 <= t ^ 2 * (S0 ^ 2 - (y ^ 2 + z ^ 2 + S3 ^ 2))) by (apply Rmult_le_pos; lra). lra.
Qed.
Lemma compton_identity t c x y z w : (((1 + t ^ 2) / 2 + c) * x - (1 - t ^ 2) / 2 * y) ^ 2 - (((1 - t ^ 2) / 2 * x - (1 + t ^ 2) / 2 * y) ^ 2 + (t * z) ^ 2 + (t * (1 + c) * w) ^ 2)
  = t ^ 2 * (x ^ 2 - (y ^ 2 + z ^ 2 + w ^ 2)) + c ^ 2 * (x ^ 2 - t ^ 2 * w ^ 2) + 2 * c * ((1 + t ^ 2) / 2 * x ^ 2 - (1 - t ^ 2) / 2 * (x * y) - t ^ 2 * w ^ 2).
Proof. field. Qed.
Theorem compton_physical : forall (S : R * R * R * R) az po E, physical S -> 0 < E -> 0 < el -> exists S', @compton N S az po E = Ok S' /\ physical S'.
Proof.
  intros [[[S0 S1] S2] S3] az po E [P Q] HE HL. assert (K : 0 < E / el) by (apply Rdiv_lt_0_compat; lra). pose proof (cosine_bound po) as CB. assert (D : 0 < 1 + E / el * (1 - cosine po)) by nra.
  eexists. split; [apply compton_form; lra|]. pose proof (turn S1 S2 (2 * az)) as T. unfold A_, B_.
  assert (C : 0 <= extra (E / el) po).
  { unfold extra, ratio. set (k := E / el) in *. clearbody k. replace (k - k * (1 / (1 + k * (1 - cosine po)))) with (k * (k * (1 - cosine po)) / (1 + k * (1 - cosine po))) by (field; lra).
    assert (0 <= k * (k * (1 - cosine po)) / (1 + k * (1 - cosine po))) by (apply Rle_mult_inv_pos; [apply Rmult_le_pos; [lra|apply Rmult_le_pos; lra]|lra]).
    assert (0 <= k * (k * (1 - cosine po)) / (1 + k * (1 - cosine po)) * (1 - cosine po)) by (apply Rmult_le_pos; lra). lra. }
  set (c := extra (E / el) po) in *. set (r := ratio (E / el) po) in *.
  set (y := cosine (2 * az) * S1 + sine (2 * az) * S2) in *. set (z := sine (2 * az) * S1 - cosine (2 * az) * S2) in *. set (t := cosine po) in *. clearbody y z t r c.
  destruct (abs_bound S0 y z S3 P ltac:(lra)) as [Y W]. pose proof (compton_identity t c S0 y z S3) as I. pose proof (pow2_ge_0 t) as T2. assert (T1 : t ^ 2 <= 1) by nra.
  pose proof (pow2_ge_0 r) as R2.
  assert (A1 : 0 <= t ^ 2 * (S0 ^ 2 - (y ^ 2 + z ^ 2 + S3 ^ 2))) by (apply Rmult_le_pos; lra).
  pose proof (pow2_ge_0 S3) as W2. pose proof (pow2_ge_0 y) as Y2.
  assert (A2 : 0 <= c ^ 2 * (S0 ^ 2 - t ^ 2 * S3 ^ 2)) by (apply Rmult_le_pos; [apply pow2_ge_0|nra]).
  assert (A3 : 0 <= 2 * c * ((1 + t ^ 2) / 2 * S0 ^ 2 - (1 - t ^ 2) / 2 * (S0 * y) - t ^ 2 * S3 ^ 2)).
  { apply Rmult_le_pos; [lra|]. assert (0 <= (1 - t ^ 2) / 2 * (S0 * (S0 - y))) by (apply Rmult_le_pos; [lra|apply Rmult_le_pos; lra]).
    assert (t ^ 2 * S3 ^ 2 <= t ^ 2 * (S0 ^ 2 - y ^ 2)) by (apply Rmult_le_compat_l; lra). assert (0 <= t ^ 2 * y ^ 2) by (apply Rmult_le_pos; lra). lra. }
  split.
  - apply Rmult_le_pos; [exact R2|]. assert (0 <= c * S0) by (apply Rmult_le_pos; lra). nra.
  - rewrite !Rpow_mult_distr. rewrite <- !Rmult_plus_distr_l. apply Rmult_le_compat_l; [apply pow2_ge_0|]. rewrite <- !Rpow_mult_distr. lra.
Qed.
(* without recoil: in the forward direction *)
Theorem compton_forward : forall (S : R * R * R * R) az E, 0 < E -> 0 < el -> @compton N S az 0 E = @thomson N S az 0.
Proof.
  intros [[[S0 S1] S2] S3] az E HE HL. assert (K : 0 < E / el) by (apply Rdiv_lt_0_compat; lra). rewrite compton_form, thomson_form by (rewrite ?cosine_0; lra).
  unfold extra, ratio, A_, B_. rewrite cosine_0. set (k := E / el) in *. clearbody k. entries; field; lra.
Qed.
End Real.
