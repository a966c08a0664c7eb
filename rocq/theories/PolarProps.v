(* Property theorems about sources/polarization.py. *)
From Verif Require Import PolarSpec PolarProofs PolarScatterProofs PolarParamProofs.
From Coq Require Import Lra.
Local Open Scope R_scope.

Theorem C74_to_stokes : forall eps el : R, forall J : (R * R) * (R * R), @to_stokes (reals eps el) J = Ok (stokes_def J).
Proof. exact to_stokes_ok. Qed.
Print Assumptions C74_to_stokes.

Theorem C74_coherency : forall eps el : R, forall S, @stokes_of_coherency (reals eps el) (@coherency_stokes (reals eps el) S) = Ok S.
Proof. exact coherency_roundtrip. Qed.
Print Assumptions C74_coherency.

Theorem C74_coherency_back : forall eps el : R, forall (a b c d : R * R) (S : R * R * R * R), @is_hermitian (reals eps el) [[a; b]; [c; d]] = true -> @stokes_of_coherency (reals eps el) [[a; b]; [c; d]] = Ok S ->
  @coherency_stokes (reals eps el) S = [[a; b]; [c; d]].
Proof. exact coherency_back. Qed.
Print Assumptions C74_coherency_back.
Example C74_coherency_back_nonvacuous : @is_hermitian (reals 1 1) [[(2, 0); (1, -3)]; [(1, 3); (5, 0)]] = true.
Proof. apply hermitian_iff. cbn [fst snd]. split; [reflexivity|]. split; [reflexivity|]. f_equal; lra. Qed.

Theorem C74_not_hermitian : forall eps el : R, forall C, @is_hermitian (reals eps el) C = false -> @stokes_of_coherency (reals eps el) C = Err RuntimeError /\ forall ph, @coherency_to_jones (reals eps el) C ph = Err RuntimeError.
Proof. exact not_hermitian. Qed.
Print Assumptions C74_not_hermitian.
(* with an imaginary intensity *)
Example C74_not_hermitian_nonvacuous : @is_hermitian (reals 1 1) [[(0, 1); (0, 0)]; [(0, 0); (1, 0)]] = false.
Proof. destruct (is_hermitian _) eqn:E; [|reflexivity]. apply (proj1 (hermitian_iff 1 1 _ _ _ _)) in E. destruct E as [E _]. cbn in E. lra. Qed.

Theorem C74_jones_roundtrip : forall eps el : R, forall (v w : R * R) loss, v <> (0, 0) -> @to_jones (reals eps el) (stokes_def (v, w)) loss (@phase0 (reals eps el) (v, w)) = Ok (v, w).
Proof. exact jones_roundtrip. Qed.
Print Assumptions C74_jones_roundtrip.

Theorem C74_stokes_roundtrip : forall eps el : R, forall (S : R * R * R * R) loss ph, lit S -> @dop (reals eps el) S = 1 -> exists J, @to_jones (reals eps el) S loss ph = Ok J /\ stokes_def J = S.
Proof. exact stokes_roundtrip. Qed.
Print Assumptions C74_stokes_roundtrip.
(* fully polarized, partly linear and partly circular *)
Example C74_stokes_roundtrip_nonvacuous : lit (5, 3, 0, 4) /\ @dop (reals 1 1) (5, 3, 0, 4) = 1 /\ physical (5, 3, 0, 4).
Proof. split; [cbn; lra|]. split; [|cbn; lra]. rewrite dop_form. replace (3 ^ 2 + 0 ^ 2 + 4 ^ 2) with (5 ^ 2) by ring. rewrite sqrt_pow2 by lra. real. field. Qed.

Theorem C74_lossy_error : forall eps el : R, forall S ph, @dop (reals eps el) S <> 1 -> @to_jones (reals eps el) S false ph = Err RuntimeError /\
  @to_jones (reals eps el) S true ph = @to_jones (reals eps el) (fst (@decompose (reals eps el) S)) true ph.
Proof. exact lossy. Qed.
Print Assumptions C74_lossy_error.

Theorem C74_lossy : forall eps el : R, forall (S : R * R * R * R) ph, @dop (reals eps el) S <> 1 -> exists J, @to_jones (reals eps el) S true ph = Ok J /\ stokes_def J = fst (@decompose (reals eps el) S).
Proof. exact stokes_lossy. Qed.
Print Assumptions C74_lossy.
(* partly polarized *)
Example C74_lossy_nonvacuous : @dop (reals 1 1) (10, 3, 0, 4) = 1 / 2 /\ physical (10, 3, 0, 4) /\ lit (10, 3, 0, 4).
Proof. split; [|cbn; lra]. rewrite dop_form. replace (3 ^ 2 + 0 ^ 2 + 4 ^ 2) with (5 ^ 2) by ring. rewrite sqrt_pow2 by lra. real. field. Qed.

Theorem C74_fully_polarized : forall eps el : R, forall J, J <> ((0, 0), (0, 0)) -> @dop (reals eps el) (stokes_def J) = 1.
Proof. exact fully_polarized. Qed.
Print Assumptions C74_fully_polarized.

Theorem C74_degrees : forall eps el : R, forall S, lit S -> @dop (reals eps el) S ^ 2 = @dolp (reals eps el) S ^ 2 + @docp (reals eps el) S ^ 2 /\ 0 <= @dolp (reals eps el) S <= @dop (reals eps el) S /\ Rabs (@docp (reals eps el) S) <= @dop (reals eps el) S /\ Rabs (@hdolp (reals eps el) S) <= @dolp (reals eps el) S.
Proof. exact degrees. Qed.
Print Assumptions C74_degrees.

Theorem C74_physical : forall eps el : R, forall S, lit S -> (physical S <-> @dop (reals eps el) S <= 1).
Proof. exact physical_dop. Qed.
Print Assumptions C74_physical.

Theorem C74_decompose : forall eps el : R, forall S, let (pol, unpol) := @decompose (reals eps el) S in
  add4 pol unpol = S /\ @polarized (reals eps el) pol = @polarized (reals eps el) S /\ @polarized (reals eps el) unpol = 0 /\
  @intensity_polarized (reals eps el) S = @intensity (reals eps el) pol /\ @intensity_unpolarized (reals eps el) S = @intensity (reals eps el) unpol /\
  (0 < @polarized (reals eps el) S -> @dop (reals eps el) pol = 1) /\ (physical S -> physical pol /\ physical unpol).
Proof. exact decompose_ok. Qed.
Print Assumptions C74_decompose.

Theorem C74_set_intensity : forall eps el : R, forall S v, 0 < eps -> lit S -> 0 < v ->
  @intensity (reals eps el) (@set_intensity (reals eps el) S v) = v /\ @dop (reals eps el) (@set_intensity (reals eps el) S v) = @dop (reals eps el) S /\ @dolp (reals eps el) (@set_intensity (reals eps el) S v) = @dolp (reals eps el) S /\
  @docp (reals eps el) (@set_intensity (reals eps el) S v) = @docp (reals eps el) S /\ @handedness (reals eps el) (@set_intensity (reals eps el) S v) = @handedness (reals eps el) S.
Proof. exact set_intensity_ok. Qed.
Print Assumptions C74_set_intensity.

Theorem C74_set_jones_intensity : forall eps el : R, forall J v, 0 < eps -> J <> ((0, 0), (0, 0)) -> 0 <= v -> @jones_intensity (reals eps el) (@set_jones_intensity (reals eps el) J v) = v.
Proof. exact set_jones_intensity_ok. Qed.
Print Assumptions C74_set_jones_intensity.

Theorem C74_params : forall eps el : R, forall S, eps <> 0 -> lit S ->
  @from_params (reals eps el) (@intensity (reals eps el) S) (@dop (reals eps el) S) (@dolp (reals eps el) S) (@polangle (reals eps el) S) (@handedness (reals eps el) S) = Ok S.
Proof. exact params_roundtrip. Qed.
Print Assumptions C74_params.

Theorem C74_params_form : forall eps el : R, forall I d l p h, 0 < eps -> 0 <= I -> 0 <= l <= d ->
  let S0 := 2 * I / eps in
  @from_params (reals eps el) I d l p h = Ok (S0, S0 * l * cosine (2 * p), S0 * l * sine (2 * p), signed h (S0 * sqrt (d ^ 2 - l ^ 2))).
Proof. exact params_form. Qed.
Print Assumptions C74_params_form.

Theorem C74_params_back : forall eps el : R, forall I d l p h, 0 < eps -> 0 < I -> 0 <= l <= d -> exists S, @from_params (reals eps el) I d l p h = Ok S /\
  @intensity (reals eps el) S = I /\ @dop (reals eps el) S = d /\ @dolp (reals eps el) S = l /\ (0 < l -> -90 < p <= 90 -> @polangle (reals eps el) S = p) /\ (l < d -> h <> NoHand -> @handedness (reals eps el) S = h) /\ (l = d -> @handedness (reals eps el) S = NoHand).
Proof. exact params_back. Qed.
Print Assumptions C74_params_back.

Theorem C74_params_error : forall eps el : R, forall I d l p h, d < l -> @from_params (reals eps el) I d l p h = Err RuntimeError.
Proof. exact params_error. Qed.
Print Assumptions C74_params_error.

Theorem C74_phase_refuted : forall eps el : R, let J := ((0, 0), (0, 1)) in @to_stokes (reals eps el) J = Ok (stokes_def J) /\ @to_jones (reals eps el) (stokes_def J) false (@phase0 (reals eps el) J) = Ok ((0, 0), (1, 0)).
Proof. exact phase_refuted. Qed.
Print Assumptions C74_phase_refuted.

Theorem C75_rotate_form : forall (eps el : R) (v w : R * R) a, @rotate (reals eps el) (v, w) a = Ok
  ((cosine a * fst v + sine a * fst w, cosine a * snd v + sine a * snd w), (- sine a * fst v + cosine a * fst w, - sine a * snd v + cosine a * snd w)).
Proof. exact rotate_form. Qed.
Print Assumptions C75_rotate_form.

Theorem C75_thomson_form : forall eps el S0 S1 S2 S3 az po, @thomson (reals eps el) (S0, S1, S2, S3) az po = Ok
  (A_ po * S0 - B_ po * (cosine (2 * az) * S1 + sine (2 * az) * S2), B_ po * S0 - A_ po * (cosine (2 * az) * S1 + sine (2 * az) * S2),
   cosine po * (sine (2 * az) * S1 - cosine (2 * az) * S2), cosine po * S3).
Proof. exact thomson_form. Qed.
Print Assumptions C75_thomson_form.
(* nothing is scattered along the electric field *)
Example C75_along_field : @thomson (reals 1 1) (1, 1, 0, 0) 0 90 = Ok (0, 0, 0, 0).
Proof.
  rewrite thomson_form. assert (C90 : cosine 90 = 0) by (unfold cosine; replace (90 * PI / 180) with (PI / 2) by field; apply cos_PI2).
  unfold A_, B_. rewrite C90. replace (2 * 0) with 0 by ring. rewrite cosine_0. repeat (apply (f_equal Ok) || apply pair2); real; field.
Qed.
(* everything that is scattered across the field is polarized along it *)
Example C75_across_field : @thomson (reals 1 1) (1, 0, 0, 0) 0 90 = Ok (1 / 2, 1 / 2, 0, 0).
Proof.
  rewrite thomson_form. assert (C90 : cosine 90 = 0) by (unfold cosine; replace (90 * PI / 180) with (PI / 2) by field; apply cos_PI2).
  unfold A_, B_. rewrite C90. repeat (apply (f_equal Ok) || apply pair2); real; field.
Qed.

Theorem C75_compton_form : forall eps el S0 S1 S2 S3 az po E, let k := E / el in k <> 0 -> 1 + k * (1 - cosine po) <> 0 -> @compton (reals eps el) (S0, S1, S2, S3) az po E = Ok
  (ratio k po ^ 2 * ((A_ po + extra k po) * S0 - B_ po * (cosine (2 * az) * S1 + sine (2 * az) * S2)), ratio k po ^ 2 * (B_ po * S0 - A_ po * (cosine (2 * az) * S1 + sine (2 * az) * S2)),
   ratio k po ^ 2 * (cosine po * (sine (2 * az) * S1 - cosine (2 * az) * S2)), ratio k po ^ 2 * (cosine po * (1 + extra k po) * S3)).
Proof. exact compton_form. Qed.
Print Assumptions C75_compton_form.

Theorem C75_rotate_commutes : forall eps el : R, forall J a, exists J', @rotate (reals eps el) J a = Ok J' /\ @rotate_stokes (reals eps el) (stokes_def J) a = Ok (stokes_def J').
Proof. exact rotate_commutes. Qed.
Print Assumptions C75_rotate_commutes.

Theorem C75_rotate_twice : forall eps el : R, forall (S : R * R * R * R) a b, exists S', @rotate_stokes (reals eps el) S a = Ok S' /\ @rotate_stokes (reals eps el) S' b = @rotate_stokes (reals eps el) S (a + b).
Proof. exact rotate_twice. Qed.
Print Assumptions C75_rotate_twice.

Theorem C75_rotate_keeps : forall eps el : R, forall (S : R * R * R * R) a, exists S', @rotate_stokes (reals eps el) S a = Ok S' /\ @intensity (reals eps el) S' = @intensity (reals eps el) S /\ @dop (reals eps el) S' = @dop (reals eps el) S /\ @dolp (reals eps el) S' = @dolp (reals eps el) S /\
  @docp (reals eps el) S' = @docp (reals eps el) S /\ @handedness (reals eps el) S' = @handedness (reals eps el) S /\ (physical S <-> physical S').
Proof. exact rotate_keeps. Qed.
Print Assumptions C75_rotate_keeps.

Theorem C75_rotate_angle : forall eps el : R, forall (S : R * R * R * R) a, lit S -> exists S0 S1 S2 S3, @rotate_stokes (reals eps el) S a = Ok (S0, S1, S2, S3) /\
  S1 = S0 * @dolp (reals eps el) S * cosine (2 * (@polangle (reals eps el) S - a)) /\ S2 = S0 * @dolp (reals eps el) S * sine (2 * (@polangle (reals eps el) S - a)).
Proof. exact rotate_angle. Qed.
Print Assumptions C75_rotate_angle.

Theorem C75_thomson_wave : forall eps el : R, forall (v w : R * R) az po, let c := sine az in let s := - cosine az in
  let v' := (c * fst v + s * fst w, c * snd v + s * snd w) in let w' := (- s * fst v + c * fst w, - s * snd v + c * snd w) in
  v' <> (0, 0) -> @thomson_jones (reals eps el) (v, w) az po = Ok (v', (cosine po * fst w', cosine po * snd w')).
Proof. exact thomson_wave. Qed.
Print Assumptions C75_thomson_wave.
Example C75_thomson_wave_nonvacuous : (sine 90 * 1 + - cosine 90 * 0, sine 90 * 0 + - cosine 90 * 0) <> (0, 0).
Proof.
  assert (S90 : sine 90 = 1) by (unfold sine; replace (90 * PI / 180) with (PI / 2) by field; apply sin_PI2). rewrite S90. intros X. apply (f_equal fst) in X. cbn in X. lra.
Qed.

Theorem C75_thomson_commutes : forall eps el : R, forall (J : (R * R) * (R * R)) az po, exists J', @thomson_jones (reals eps el) J az po = Ok J' /\ @thomson (reals eps el) (stokes_def J) az po = Ok (stokes_def J').
Proof. exact thomson_commutes. Qed.
Print Assumptions C75_thomson_commutes.

Theorem C75_thomson_intensity : forall eps el : R, forall (S : R * R * R * R) az po, lit S -> exists S', @thomson (reals eps el) S az po = Ok S' /\ @intensity (reals eps el) S' = @thomson_intensity (reals eps el) S az po.
Proof. exact thomson_intensity_ok. Qed.
Print Assumptions C75_thomson_intensity.

Theorem C75_compton_intensity : forall eps el : R, forall (S : R * R * R * R) az po E, lit S -> 0 < E -> 0 < el -> exists S', @compton (reals eps el) S az po E = Ok S' /\ @intensity (reals eps el) S' = @compton_intensity (reals eps el) S az po E.
Proof. exact compton_intensity_ok. Qed.
Print Assumptions C75_compton_intensity.

Theorem C75_thomson_physical : forall eps el : R, forall (S : R * R * R * R) az po, physical S -> exists S', @thomson (reals eps el) S az po = Ok S' /\ physical S'.
Proof. exact thomson_physical. Qed.
Print Assumptions C75_thomson_physical.

Theorem C75_compton_physical : forall eps el : R, forall (S : R * R * R * R) az po E, physical S -> 0 < E -> 0 < el -> exists S', @compton (reals eps el) S az po E = Ok S' /\ physical S'.
Proof. exact compton_physical. Qed.
Print Assumptions C75_compton_physical.

Theorem C75_compton_forward : forall eps el : R, forall (S : R * R * R * R) az E, 0 < E -> 0 < el -> @compton (reals eps el) S az 0 E = @thomson (reals eps el) S az 0.
Proof. exact compton_forward. Qed.
Print Assumptions C75_compton_forward.

Theorem C75_mueller_partial : forall eps el : R, forall (a b d : R * R) (J : (R * R) * (R * R)), exists J', apply_jones eps el [[a; b]; [b; d]] J = Ok J' /\
  apply_mueller eps el (@jones_to_mueller (reals eps el) [[a; b]; [b; d]]) (stokes_def J) = map (@creal (reals eps el)) (@svec (reals eps el) (stokes_def J')).
Proof. exact mueller_symmetric. Qed.
Print Assumptions C75_mueller_partial.

Theorem C75_mueller_refuted : forall eps el : R, let M := @cmat (reals eps el) (@JonesMatrixRotation (reals eps el) 90) in let J := ((1, 0), (0, 0)) in
  apply_jones eps el M J = Ok ((0, 0), (1, 0)) /\
  map (@creal (reals eps el)) (@svec (reals eps el) (stokes_def ((0, 0), (1, 0)))) = [(1, 0); (- (1), 0); (0, 0); (0, 0)] /\
  apply_mueller eps el (@jones_to_mueller (reals eps el) M) (stokes_def J) = [(- (1), 0); (1, 0); (0, 0); (0, 0)].
Proof. exact mueller_refuted. Qed.
Print Assumptions C75_mueller_refuted.

