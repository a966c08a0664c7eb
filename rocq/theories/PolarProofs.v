From Verif Require Import PolarModel PolarSpec.
From Coq Require Import Lra Lia.
Local Open Scope R_scope.

Ltac plain := cbv beta iota zeta delta [carrier n0 n1 nadd nsub nmul ndiv nopp cos_deg sin_deg atan2d root ltb eqb right_angle eps0_c electron reals
  two sq creal cadd cmul conj chalf ceqb expi phase csum rsum zip cdot rdot transpose cmat_mul hermite cmat kron
  map flat_map fold_right repeat app List.concat combine forallb fst snd
  jonesnormsq_to_intensity intensity_to_jonesnormsq kev_to_mc2 JonesMatrixRotation MuellerMatrixRotation JonesMatrixThomson ThomsonRotationAngle ComptonRotationAngle
  MuellerMatrixThomson MuellerMatrixCompton jvec to_jvec sqnorm jones_intensity set_jones_intensity coherency phase0 is_hermitian rotate
  svec to_svec imag pauli44 coherency_stokes intensity set_intensity polarized intensity_polarized intensity_unpolarized dop dolp hdolp docp polangle decompose
  jones_to_mueller rotate_stokes thomson compton thomson_K compton_K thomson_intensity compton_intensity
  modulus2 cross stokes_def add4 cx jones stokes].
Ltac plain_in H := cbv beta iota zeta delta [carrier n0 n1 nadd nsub nmul ndiv nopp cos_deg sin_deg atan2d root ltb eqb right_angle eps0_c electron reals
  two sq creal cadd cmul conj chalf ceqb expi phase csum rsum zip cdot rdot transpose cmat_mul hermite cmat kron
  map flat_map fold_right repeat app List.concat combine forallb fst snd
  jonesnormsq_to_intensity intensity_to_jonesnormsq kev_to_mc2 JonesMatrixRotation MuellerMatrixRotation JonesMatrixThomson ThomsonRotationAngle ComptonRotationAngle
  MuellerMatrixThomson MuellerMatrixCompton jvec to_jvec sqnorm jones_intensity set_jones_intensity coherency phase0 is_hermitian rotate
  svec to_svec imag pauli44 coherency_stokes intensity set_intensity polarized intensity_polarized intensity_unpolarized dop dolp hdolp docp polangle decompose
  jones_to_mueller rotate_stokes thomson compton thomson_K compton_K thomson_intensity compton_intensity
  modulus2 cross stokes_def add4 cx jones stokes] in H.
Lemma pair2 {A B} (a a' : A) (b b' : B) : a = a' -> b = b' -> (a, b) = (a', b'). Proof. congruence. Qed.
Lemma cons2 {A} (a a' : A) l l' : a = a' -> l = l' -> a :: l = a' :: l'. Proof. congruence. Qed.
Lemma ok2 {A} (a a' : A) : a = a' -> Ok a = Ok a'. Proof. congruence. Qed.
Ltac entries := lazymatch goal with
  | |- Ok _ = Ok _ => apply ok2; entries
  | |- (_, _) = (_, _) => apply pair2; entries
  | |- _ :: _ = _ :: _ => apply cons2; entries
  | |- [] = [] => exact eq_refl
  | |- ?a = ?b => change (@eq R a b)
  end.

Ltac real := match goal with |- ?a = ?b => change (@eq R a b) end.
Section Real.
Variables eps el : R.
Notation N := (reals eps el).

Lemma hermitian_iff (a b c d : R * R) : @is_hermitian N [[a; b]; [c; d]] = true <-> snd a = 0 /\ snd d = 0 /\ c = (fst b, - snd b).
Proof.
  destruct a as [a1 a2], b as [b1 b2], c as [c1 c2], d as [d1 d2]. plain.
  destruct (Req_EM_T a1 a1); [|congruence]. destruct (Req_EM_T d1 d1); [|congruence].
  destruct (Req_EM_T a2 (- a2)) as [E1|N1], (Req_EM_T b1 c1) as [E2|N2], (Req_EM_T b2 (- c2)) as [E3|N3], (Req_EM_T c1 b1) as [E4|N4], (Req_EM_T c2 (- b2)) as [E5|N5], (Req_EM_T d2 (- d2)) as [E6|N6];
    cbn [andb]; split; intros H; try discriminate H; try (exfalso; destruct H as (H1 & H2 & H3); assert (c1 = b1) by congruence; assert (c2 = - b2) by congruence; lra); auto.
  split; [lra|]. split; [lra|]. now rewrite E4, E5.
Qed.
Lemma coherency_form (v w : R * R) : @coherency N (v, w) =
  [[(modulus2 v, 0); (fst (cross v w), - snd (cross v w))]; [cross v w; (modulus2 w, 0)]].
Proof. destruct v, w. plain. entries; ring. Qed.
Lemma stokes_form (a b c d : R * R) : @is_hermitian N [[a; b]; [c; d]] = true ->
  @stokes_of_coherency N [[a; b]; [c; d]] = Ok (fst a + fst d, fst a - fst d, 2 * fst c, 2 * snd c).
Proof.
  intros H. unfold stokes_of_coherency. rewrite H. apply hermitian_iff in H. destruct H as (Ha & Hd & ->). destruct a as [a1 a2], b as [b1 b2], d as [d1 d2]. cbn [snd] in Ha, Hd. subst a2 d2.
  plain. entries; ring.
Qed.
Lemma coherency_hermitian J : @is_hermitian N (@coherency N J) = true.
Proof. destruct J as [v w]. rewrite coherency_form. apply hermitian_iff. cbn [fst snd]. split; [reflexivity|]. split; [reflexivity|]. rewrite Ropp_involutive. now destruct (cross v w). Qed.
Theorem to_stokes_ok : forall J : (R * R) * (R * R), @to_stokes N J = Ok (stokes_def J).
Proof.
  intros [v w]. unfold to_stokes. rewrite coherency_form. rewrite stokes_form.
  - cbn [fst snd]. reflexivity.
  - rewrite <- coherency_form. apply coherency_hermitian.
Qed.
Lemma coherency_stokes_form S0 S1 S2 S3 : @coherency_stokes N (S0, S1, S2, S3) =
  [[((S0 + S1) / 2, 0); (S2 / 2, - (S3 / 2))]; [(S2 / 2, S3 / 2); ((S0 - S1) / 2, 0)]].
Proof. plain. entries; field. Qed.
Lemma coherency_stokes_hermitian S : @is_hermitian N (@coherency_stokes N S) = true.
Proof. destruct S as [[[S0 S1] S2] S3]. rewrite coherency_stokes_form. apply hermitian_iff. cbn [fst snd]. split; [reflexivity|]. split; [reflexivity|]. now rewrite Ropp_involutive. Qed.
Theorem coherency_roundtrip : forall S, @stokes_of_coherency N (@coherency_stokes N S) = Ok S.
Proof.
  intros S. pose proof (coherency_stokes_hermitian S) as H. destruct S as [[[S0 S1] S2] S3]. rewrite coherency_stokes_form in H |- *. rewrite stokes_form by exact H. cbn [fst snd]. entries; field.
Qed.
Theorem coherency_back : forall (a b c d : R * R) (S : R * R * R * R), @is_hermitian N [[a; b]; [c; d]] = true -> @stokes_of_coherency N [[a; b]; [c; d]] = Ok S ->
  @coherency_stokes N S = [[a; b]; [c; d]].
Proof.
  intros a b c d S H E. pose proof (eq_trans (eq_sym E) (stokes_form a b c d H)) as E'. assert (S = (fst a + fst d, fst a - fst d, 2 * fst c, 2 * snd c)) by congruence. subst S. clear E E'.
  rewrite coherency_stokes_form. apply hermitian_iff in H. destruct a as [a1 a2], b as [b1 b2], c as [c1 c2], d as [d1 d2]. cbn [fst snd] in *. destruct H as (-> & -> & Hc).
  assert (c1 = b1) by congruence. assert (c2 = - b2) by congruence. subst c1 c2. entries; field.
Qed.
Theorem not_hermitian : forall C, @is_hermitian N C = false -> @stokes_of_coherency N C = Err RuntimeError /\ forall ph, @coherency_to_jones N C ph = Err RuntimeError.
Proof. intros C H. unfold stokes_of_coherency, coherency_to_jones. rewrite H. auto. Qed.

(* ---- trigonometry ---- *)
Lemma arctan2_ok x y : sqrt (x ^ 2 + y ^ 2) * cos (arctan2 y x) = x /\ sqrt (x ^ 2 + y ^ 2) * sin (arctan2 y x) = y.
Proof.
  assert (P : forall q, 0 < sqrt (1 + q²)) by (intros q; apply sqrt_lt_R0; pose proof (Rle_0_sqr q); lra).
  assert (Q : forall z, 0 < z -> z ^ 2 = x ^ 2 -> sqrt (x ^ 2 + y ^ 2) = z * sqrt (1 + (y / x)²)).
  { intros z Z E. assert (x <> 0) by (intros ->; nra). replace (x ^ 2 + y ^ 2) with (z ^ 2 * (1 + (y / x)²)) by (rewrite E; unfold Rsqr; field; assumption).
    rewrite sqrt_mult_alt by nra. rewrite sqrt_pow2 by lra. reflexivity. }
  unfold arctan2. destruct (Rlt_dec 0 x) as [L|L].
  - rewrite (Q x L eq_refl), cos_atan, sin_atan. pose proof (P (y / x)). split; field; lra.
  - destruct (Rlt_dec x 0) as [M|M].
    + rewrite (Q (- x)) by (try nra; ring). pose proof (P (y / x)).
      assert (CS : cos (if Rlt_dec y 0 then atan (y / x) - PI else atan (y / x) + PI) = - (1 / sqrt (1 + (y / x)²)) /\ sin (if Rlt_dec y 0 then atan (y / x) - PI else atan (y / x) + PI) = - (y / x / sqrt (1 + (y / x)²))).
      { rewrite <- cos_atan, <- sin_atan. destruct (Rlt_dec y 0); [|rewrite neg_cos, neg_sin; auto]. rewrite cos_minus, sin_minus, cos_PI, sin_PI. split; ring. }
      destruct CS as [-> ->]. split; field; lra.
    + assert (x = 0) by lra. subst x. replace (0 ^ 2 + y ^ 2) with (y ^ 2) by ring. destruct (Rlt_dec 0 y) as [Y|Y].
      * rewrite cos_PI2, sin_PI2, sqrt_pow2 by lra. lra.
      * destruct (Rlt_dec y 0) as [Y'|Y'].
        -- rewrite cos_neg, sin_neg, cos_PI2, sin_PI2. replace (y ^ 2) with ((- y) ^ 2) by ring. rewrite sqrt_pow2 by lra. lra.
        -- assert (y = 0) by lra. subst y. replace (0 ^ 2) with 0 by ring. rewrite sqrt_0. lra.
Qed.
Lemma deg_back x : x * 180 / PI * PI / 180 = x. Proof. field. apply PI_neq0. Qed.
Lemma phase_ok v : sqrt (modulus2 v) * cos (@phase N v * PI / 180) = fst v /\ sqrt (modulus2 v) * sin (@phase N v * PI / 180) = snd v.
Proof. unfold phase. cbn [atan2d reals]. rewrite deg_back. apply arctan2_ok. Qed.
Lemma csqrt_ok x : 0 <= x -> @csqrt N x = (sqrt x, 0).
Proof. intros H. unfold csqrt. cbn [ltb reals n0 root nopp]. destruct (Rlt_dec x 0); [lra|reflexivity]. Qed.

(* ---- Jones and Stokes ---- *)
Lemma modulus2_nonneg v : 0 <= modulus2 v. Proof. unfold modulus2. nra. Qed.
Lemma modulus2_pos v : v <> (0, 0) -> 0 < modulus2 v.
Proof. destruct v as [a b]. unfold modulus2. cbn [fst snd]. intros H. destruct (Req_EM_T a 0) as [->|]; [|nra]. destruct (Req_EM_T b 0) as [->|]; [congruence|nra]. Qed.
Lemma polarized_def J : @polarized N (stokes_def J) = modulus2 (fst J) + modulus2 (snd J).
Proof.
  destruct J as [v w]. unfold polarized, stokes_def. cbn [root reals]. cbn [rsum map fold_right nadd n0 sq nmul].
  match goal with |- sqrt ?z = _ => replace z with ((modulus2 v + modulus2 w) ^ 2) by (destruct v, w; plain; ring) end.
  apply sqrt_pow2. pose proof (modulus2_nonneg v). pose proof (modulus2_nonneg w). cbn [fst snd]. lra.
Qed.
Theorem fully_polarized : forall J, J <> ((0, 0), (0, 0)) -> @dop N (stokes_def J) = 1.
Proof.
  intros [v w] H. pose proof (polarized_def (v, w)) as P. unfold dop, stokes_def in *. rewrite P. cbn [fst snd ndiv reals].
  assert (0 < modulus2 v + modulus2 w).
  { pose proof (modulus2_nonneg v). pose proof (modulus2_nonneg w). destruct (Req_EM_T (fst v) 0) as [E1|]; [|unfold modulus2 in *; nra]. destruct (Req_EM_T (snd v) 0) as [E2|]; [|unfold modulus2 in *; nra].
    assert (w <> (0, 0)) by (intros ->; apply H; destruct v; cbn in E1, E2; congruence). pose proof (modulus2_pos w H2). lra. }
  real. field. lra.
Qed.
Lemma jones_back (v w : R * R) : v <> (0, 0) -> @coherency_to_jones N (@coherency N (v, w)) (@phase N v) = Ok (v, w).
Proof.
  intros H. unfold coherency_to_jones. rewrite coherency_hermitian, coherency_form. cbn [fst]. rewrite !csqrt_ok by apply modulus2_nonneg.
  pose proof (modulus2_pos v H) as P. destruct (phase_ok v) as [A B]. destruct (phase_ok (cross v w)) as [C D].
  assert (R10 : sqrt (modulus2 (cross v w)) = sqrt (modulus2 v) * sqrt (modulus2 w)).
  { rewrite <- sqrt_mult_alt by lra. f_equal. unfold modulus2, cross. cbn [fst snd]. ring. }
  rewrite R10 in C, D. pose proof (sqrt_sqrt (modulus2 v) (Rlt_le _ _ P)) as SS. pose proof (sqrt_lt_R0 _ P) as SP.
  apply ok2, pair2; unfold cmul, expi; cbn [fst snd nsub nadd nmul n0 cos_deg sin_deg reals].
  - destruct v as [v1 v2]. cbn [fst snd] in A, B |- *. apply pair2; lra.
  - assert (AN : (@nadd N (@phase N (cross v w)) (@phase N v)) * PI / 180 = @phase N (cross v w) * PI / 180 + @phase N v * PI / 180) by (cbn [nadd reals]; field).
    cbn [nadd reals] in AN. rewrite AN, cos_plus, sin_plus.
    set (c0 := cos (@phase N v * PI / 180)) in *. set (s0 := sin (@phase N v * PI / 180)) in *. set (c1 := cos (@phase N (cross v w) * PI / 180)) in *. set (s1 := sin (@phase N (cross v w) * PI / 180)) in *.
    set (rv := sqrt (modulus2 v)) in *. set (rw := sqrt (modulus2 w)) in *. clearbody c0 s0 c1 s1 rw. destruct v as [v1 v2], w as [w1 w2]. unfold cross in C, D. cbn [fst snd] in *.
    clearbody rv. unfold modulus2 in SS, P. cbn [fst snd] in SS, P.
    assert (E1 : (rv * rv) * (rw * (c1 * c0 - s1 * s0)) = (rv * rv) * w1).
    { replace (rv * rv * (rw * (c1 * c0 - s1 * s0))) with ((rv * rw * c1) * (rv * c0) - (rv * rw * s1) * (rv * s0)) by ring. rewrite C, D, A, B, SS. ring. }
    assert (E2 : (rv * rv) * (rw * (s1 * c0 + c1 * s0)) = (rv * rv) * w2).
    { replace (rv * rv * (rw * (s1 * c0 + c1 * s0))) with ((rv * rw * s1) * (rv * c0) + (rv * rw * c1) * (rv * s0)) by ring. rewrite C, D, A, B, SS. ring. }
    assert (NZ : rv * rv <> 0) by nra. apply Rmult_eq_reg_l in E1; [|exact NZ]. apply Rmult_eq_reg_l in E2; [|exact NZ].
    apply pair2; lra.
Qed.
Theorem jones_roundtrip : forall (v w : R * R) loss, v <> (0, 0) -> @to_jones N (stokes_def (v, w)) loss (@phase0 N (v, w)) = Ok (v, w).
Proof.
  intros v w loss H. unfold to_jones. rewrite fully_polarized by (intros E; apply H; congruence). cbn [nsub n1 n0 eqb reals].
  destruct (Req_EM_T (1 - 1) 0) as [_|X]; [|lra]. cbn [bind]. pose proof (to_stokes_ok (v, w)) as T. unfold to_stokes in T.
  rewrite (coherency_form v w) in T. rewrite (coherency_back _ _ _ _ _ (eq_trans (f_equal _ (eq_sym (coherency_form v w))) (coherency_hermitian (v, w))) T).
  rewrite <- coherency_form. unfold phase0. cbn [fst]. now apply jones_back.
Qed.

(* ---- degrees of polarization ---- *)
Lemma polarized_form S0 S1 S2 S3 : @polarized N (S0, S1, S2, S3) = sqrt (S1 ^ 2 + S2 ^ 2 + S3 ^ 2).
Proof. unfold polarized. cbn [root reals]. f_equal. plain. real. ring. Qed.
Lemma dolp_form S0 S1 S2 S3 : @dolp N (S0, S1, S2, S3) = sqrt (S1 ^ 2 + S2 ^ 2) / S0.
Proof. unfold dolp. cbn [root reals ndiv]. f_equal. f_equal. plain. real. ring. Qed.
Lemma dop_form S0 S1 S2 S3 : @dop N (S0, S1, S2, S3) = sqrt (S1 ^ 2 + S2 ^ 2 + S3 ^ 2) / S0.
Proof. unfold dop. now rewrite polarized_form. Qed.
Theorem degrees : forall S, lit S -> @dop N S ^ 2 = @dolp N S ^ 2 + @docp N S ^ 2 /\ 0 <= @dolp N S <= @dop N S /\ Rabs (@docp N S) <= @dop N S /\ Rabs (@hdolp N S) <= @dolp N S.
Proof.
  intros [[[S0 S1] S2] S3] L. unfold lit in L. rewrite dop_form, dolp_form. unfold docp, hdolp. cbn [ndiv reals].
  set (p := sqrt (S1 ^ 2 + S2 ^ 2 + S3 ^ 2)). set (q := sqrt (S1 ^ 2 + S2 ^ 2)).
  assert (Q2 : q ^ 2 = S1 ^ 2 + S2 ^ 2) by (apply pow2_sqrt; nra). assert (P2 : p ^ 2 = S1 ^ 2 + S2 ^ 2 + S3 ^ 2) by (apply pow2_sqrt; nra).
  assert (Q0 : 0 <= q) by apply sqrt_pos. assert (P0 : 0 <= p) by apply sqrt_pos. clearbody p q.
  assert (I0 : 0 < / S0) by (now apply Rinv_0_lt_compat).
  assert (AB : forall x y, x ^ 2 <= y ^ 2 -> 0 <= y -> Rabs (x / S0) <= y / S0).
  { intros x y H Y. unfold Rdiv. rewrite Rabs_mult, (Rabs_pos_eq (/ S0)) by lra. apply Rmult_le_compat_r; [lra|]. apply Rabs_le. split; nra. }
  split; [|split; [split|split]].
  - unfold Rdiv. rewrite !Rpow_mult_distr, P2, Q2. ring.
  - unfold Rdiv. nra.
  - unfold Rdiv. apply Rmult_le_compat_r; [lra|nra].
  - apply AB; [nra|exact P0].
  - apply AB; [nra|exact Q0].
Qed.
Theorem physical_dop : forall S, lit S -> (physical S <-> @dop N S <= 1).
Proof.
  intros [[[S0 S1] S2] S3] L. unfold lit in L. unfold physical. rewrite dop_form. set (p := sqrt (S1 ^ 2 + S2 ^ 2 + S3 ^ 2)).
  assert (P2 : p ^ 2 = S1 ^ 2 + S2 ^ 2 + S3 ^ 2) by (apply pow2_sqrt; nra). assert (P0 : 0 <= p) by apply sqrt_pos. rewrite <- P2. clearbody p. split.
  - intros [_ H]. apply Rmult_le_reg_r with S0; [exact L|]. unfold Rdiv. rewrite Rmult_assoc, Rinv_l by lra. nra.
  - intros H. split; [lra|]. assert (p <= S0); [|nra]. apply (Rmult_le_compat_r S0) in H; [|lra]. unfold Rdiv in H. rewrite Rmult_assoc, Rinv_l in H by lra. lra.
Qed.
Theorem decompose_ok : forall S, let (pol, unpol) := @decompose N S in
  add4 pol unpol = S /\ @polarized N pol = @polarized N S /\ @polarized N unpol = 0 /\
  @intensity_polarized N S = @intensity N pol /\ @intensity_unpolarized N S = @intensity N unpol /\
  (0 < @polarized N S -> @dop N pol = 1) /\ (physical S -> physical pol /\ physical unpol).
Proof.
  intros [[[S0 S1] S2] S3]. unfold decompose. rewrite polarized_form. set (p := sqrt (S1 ^ 2 + S2 ^ 2 + S3 ^ 2)).
  assert (P2 : p ^ 2 = S1 ^ 2 + S2 ^ 2 + S3 ^ 2) by (apply pow2_sqrt; nra). assert (P0 : 0 <= p) by apply sqrt_pos.
  split; [plain; entries; ring|]. split; [rewrite polarized_form; reflexivity|].
  split; [rewrite polarized_form; cbn [n0 reals]; replace (0 ^ 2 + 0 ^ 2 + 0 ^ 2) with 0 by ring; apply sqrt_0|].
  split; [unfold intensity_polarized; rewrite polarized_form; reflexivity|]. split; [unfold intensity_unpolarized; rewrite polarized_form; reflexivity|]. split.
  - intros H. rewrite dop_form. fold p. real. field. lra.
  - unfold physical. cbn [nsub n0 reals]. intros [A B]. rewrite <- P2 in B. clearbody p. split; split; nra.
Qed.
Theorem lossy : forall S ph, @dop N S <> 1 -> @to_jones N S false ph = Err RuntimeError /\
  @to_jones N S true ph = @to_jones N (fst (@decompose N S)) true ph.
Proof.
  intros S ph H. unfold to_jones at 1. cbn [eqb nsub n1 n0 reals]. destruct (Req_EM_T (@dop N S - 1) 0) as [E|_]; [exfalso; apply H; lra|]. split; [reflexivity|].
  unfold to_jones. cbn [eqb nsub n1 n0 reals]. destruct (Req_EM_T (@dop N S - 1) 0) as [E|_]; [exfalso; apply H; lra|]. cbn [bind].
  destruct (Req_EM_T (@dop N (fst (@decompose N S)) - 1) 0) as [E|_]; cbn [bind]; [reflexivity|].
  destruct S as [[[S0 S1] S2] S3]. unfold decompose. cbn [fst]. rewrite !polarized_form. reflexivity.
Qed.
Theorem set_intensity_ok : forall S v, 0 < eps -> lit S -> 0 < v ->
  @intensity N (@set_intensity N S v) = v /\ @dop N (@set_intensity N S v) = @dop N S /\ @dolp N (@set_intensity N S v) = @dolp N S /\
  @docp N (@set_intensity N S v) = @docp N S /\ @handedness N (@set_intensity N S v) = @handedness N S.
Proof.
  intros [[[S0 S1] S2] S3] v E L V. unfold lit in L. unfold set_intensity. set (f := @ndiv N v (@intensity N (S0, S1, S2, S3))).
  assert (F : f = v * 2 / (S0 * eps)) by (unfold f; plain; field; lra). assert (FP : 0 < f) by (rewrite F; apply Rdiv_lt_0_compat; nra). clearbody f.
  assert (SQ : forall z, 0 <= z -> sqrt (f ^ 2 * z) / (S0 * f) = sqrt z / S0) by (intros z Z; rewrite sqrt_mult_alt by nra; rewrite sqrt_pow2 by lra; field; lra).
  split; [unfold intensity; plain; rewrite F; field; lra|]. rewrite !dop_form, !dolp_form. cbn [nmul reals]. split; [|split; [|split]].
  - rewrite <- SQ by nra. f_equal. f_equal. ring.
  - rewrite <- SQ by nra. f_equal. f_equal. ring.
  - unfold docp. cbn [ndiv reals]. real. field. lra.
  - unfold handedness. cbn [ltb n0 reals]. destruct (Rlt_dec 0 S3), (Rlt_dec 0 (S3 * f)), (Rlt_dec S3 0), (Rlt_dec (S3 * f) 0); try reflexivity; exfalso; nra.
Qed.
Theorem set_jones_intensity_ok : forall J v, 0 < eps -> J <> ((0, 0), (0, 0)) -> 0 <= v -> @jones_intensity N (@set_jones_intensity N J v) = v.
Proof.
  intros [a b] v E H V. assert (P : 0 < modulus2 a + modulus2 b).
  { pose proof (modulus2_nonneg a). pose proof (modulus2_nonneg b). destruct (Req_EM_T (modulus2 a) 0) as [E1|]; [|lra]. destruct (Req_EM_T (modulus2 b) 0) as [E2|]; [|lra].
    exfalso. apply H. destruct a as [a1 a2], b as [b1 b2]. unfold modulus2 in E1, E2. cbn [fst snd] in E1, E2. assert (a1 = 0) by nra. assert (a2 = 0) by nra. assert (b1 = 0) by nra. assert (b2 = 0) by nra. congruence. }
  assert (JI : forall a b, @jones_intensity N (a, b) = (modulus2 a + modulus2 b) / 2 * eps) by (intros [? ?] [? ?]; plain; field).
  unfold set_jones_intensity. cbn [fst snd]. rewrite JI.
  match goal with |- context [@creal N (@root N ?z)] => assert (Z : z = v / ((modulus2 a + modulus2 b) / 2 * eps)) by (destruct a, b; plain; f_equal; field); rewrite Z; clear Z end.
  match goal with |- context [@creal N (@root N ?z)] => set (f := @root N z) end.
  assert (F2 : f ^ 2 = v / ((modulus2 a + modulus2 b) / 2 * eps)) by (unfold f; cbn [root reals]; apply pow2_sqrt; apply Rmult_le_pos; [lra|]; apply Rlt_le, Rinv_0_lt_compat; nra).
  clearbody f. replace (modulus2 (@cmul N a (@creal N f)) + modulus2 (@cmul N b (@creal N f))) with (f ^ 2 * (modulus2 a + modulus2 b)) by (destruct a, b; plain; ring).
  rewrite F2. real. field. lra.
Qed.

(* ---- parameters ---- *)
Lemma cos_polangle S0 S1 S2 S3 : cos (2 * @polangle N (S0, S1, S2, S3) * PI / 180) = cos (arctan2 S2 S1) /\ sin (2 * @polangle N (S0, S1, S2, S3) * PI / 180) = sin (arctan2 S2 S1).
Proof.
  unfold polangle. cbn [ndiv atan2d reals]. replace (2 * (arctan2 S2 S1 * 180 / PI / @two N) * PI / 180) with (arctan2 S2 S1); [auto|]. change (@two N) with (1 + 1). field. apply PI_neq0.
Qed.
Lemma sgn_abs x : sqrt (x ^ 2) * @sgn N x = x.
Proof.
  unfold sgn. cbn [ltb n0 n1 nopp reals]. destruct (Rlt_dec 0 x); [rewrite sqrt_pow2 by lra; lra|]. destruct (Rlt_dec x 0).
  - replace (x ^ 2) with ((- x) ^ 2) by ring. rewrite sqrt_pow2 by lra. lra.
  - assert (x = 0) by lra. subst x. lra.
Qed.
Lemma sgn_scale r x : 0 < r -> @sgn N (x / r) = @sgn N x.
Proof.
  intros R0. assert (I0 : 0 < / r) by (now apply Rinv_0_lt_compat). unfold sgn. cbn [ltb n0 n1 nopp reals]. unfold Rdiv.
  destruct (Rlt_dec 0 (x * / r)), (Rlt_dec 0 x), (Rlt_dec (x * / r) 0), (Rlt_dec x 0); try reflexivity; exfalso; nra.
Qed.
Theorem params_roundtrip : forall S, eps <> 0 -> lit S ->
  @from_params N (@intensity N S) (@dop N S) (@dolp N S) (@polangle N S) (@handedness N S) = Ok S.
Proof.
  intros S E L. pose proof (degrees S L) as (_ & (_ & DD) & _ & _). destruct S as [[[S0 S1] S2] S3]. unfold lit in L. unfold from_params. cbn [ltb reals].
  destruct (Rlt_dec (@dop N (S0, S1, S2, S3)) (@dolp N (S0, S1, S2, S3))) as [X|_]; [exfalso; apply (Rlt_not_le _ _ X DD)|]. clear DD.
  assert (I0 : @intensity_to_jonesnormsq N (@intensity N (S0, S1, S2, S3)) = S0) by (plain; field; exact E). rewrite I0. clear I0.
  rewrite dop_form, dolp_form.
  assert (E12 : @sq N (@nmul N (sqrt (S1 ^ 2 + S2 ^ 2) / S0) S0) = S1 ^ 2 + S2 ^ 2).
  { unfold sq. cbn [nmul reals]. replace (sqrt (S1 ^ 2 + S2 ^ 2) / S0 * S0) with (sqrt (S1 ^ 2 + S2 ^ 2)) by (field; lra). apply sqrt_sqrt. nra. }
  assert (E123 : @sq N (@nmul N (sqrt (S1 ^ 2 + S2 ^ 2 + S3 ^ 2) / S0) S0) = S1 ^ 2 + S2 ^ 2 + S3 ^ 2).
  { unfold sq. cbn [nmul reals]. replace (sqrt (S1 ^ 2 + S2 ^ 2 + S3 ^ 2) / S0 * S0) with (sqrt (S1 ^ 2 + S2 ^ 2 + S3 ^ 2)) by (field; lra). apply sqrt_sqrt. nra. }
  rewrite E12, E123. clear E12 E123. destruct (cos_polangle S0 S1 S2 S3) as [CP SP].
  assert (C : @cos_deg N (@nmul N (@two N) (@polangle N (S0, S1, S2, S3))) = cos (arctan2 S2 S1)) by (rewrite <- CP; cbn [cos_deg nmul reals]; unfold two; cbn [nadd n1 reals]; f_equal).
  assert (D : @sin_deg N (@nmul N (@two N) (@polangle N (S0, S1, S2, S3))) = sin (arctan2 S2 S1)) by (rewrite <- SP; cbn [sin_deg nmul reals]; unfold two; cbn [nadd n1 reals]; f_equal).
  rewrite C, D. clear C D CP SP.
  assert (H3 : match @handedness N (S0, S1, S2, S3) with Right => @nopp N (@root N (@nsub N (S1 ^ 2 + S2 ^ 2 + S3 ^ 2) (S1 ^ 2 + S2 ^ 2))) | _ => @root N (@nsub N (S1 ^ 2 + S2 ^ 2 + S3 ^ 2) (S1 ^ 2 + S2 ^ 2)) end = S3).
  { cbn [root nsub nopp reals]. replace (S1 ^ 2 + S2 ^ 2 + S3 ^ 2 - (S1 ^ 2 + S2 ^ 2)) with (S3 ^ 2) by ring. unfold handedness. cbn [ltb n0 reals]. destruct (Rlt_dec 0 S3); [apply sqrt_pow2; lra|]. destruct (Rlt_dec S3 0).
    - replace (S3 ^ 2) with ((- S3) ^ 2) by ring. rewrite sqrt_pow2 by lra. real. ring.
    - assert (S3 = 0) by lra. subst S3. apply sqrt_pow2. lra. }
  rewrite H3. clear H3. destruct (arctan2_ok S1 S2) as [A B]. set (c := cos (arctan2 S2 S1)) in *. set (s := sin (arctan2 S2 S1)) in *. clearbody c s.
  cbn [eqb n0 reals]. destruct (Req_EM_T (S1 ^ 2 + S2 ^ 2) 0) as [Z|NZ].
  { assert (S1 = 0) by nra. assert (S2 = 0) by nra. subst S1 S2. apply ok2, pair2; [|reflexivity]. apply pair2; [apply pair2; [reflexivity|]|]; cbn [root nmul ndiv nsub reals].
    - destruct (Req_EM_T c 0); [rewrite sqrt_0; real; ring|]. replace (0 ^ 2 + 0 ^ 2) with 0 by ring. unfold Rdiv. rewrite Rmult_0_l, sqrt_0. real. ring.
    - destruct (Req_EM_T c 0); (replace (0 ^ 2 + 0 ^ 2) with 0 by ring); unfold Rdiv; rewrite ?Rmult_0_l, Rminus_0_r, sqrt_0; real; ring. }
  assert (R0 : 0 < sqrt (S1 ^ 2 + S2 ^ 2)) by (apply sqrt_lt_R0; nra). pose proof (sqrt_sqrt (S1 ^ 2 + S2 ^ 2)) as RR. assert (NN : 0 <= S1 ^ 2 + S2 ^ 2) by nra. specialize (RR NN). set (r := sqrt (S1 ^ 2 + S2 ^ 2)) in *. clearbody r.
  assert (Ec : c = S1 / r) by (rewrite <- A; field; lra). assert (Es : s = S2 / r) by (rewrite <- B; field; lra).
  assert (S1SQ : (if (if Req_EM_T c 0 then true else false) then 0 else @ndiv N (S1 ^ 2 + S2 ^ 2) (@nadd N (@n1 N) (@sq N (@ndiv N s c)))) = S1 ^ 2).
  { destruct (Req_EM_T c 0) as [C0|C0].
    - assert (Z1 : S1 = 0) by (rewrite <- A, C0; ring). real. rewrite Z1. ring.
    - assert (S1 <> 0) by (intros ->; apply C0; rewrite Ec; field; lra). unfold sq. cbn [ndiv nadd nmul n1 reals]. rewrite Ec, Es. field. split; [lra|]. split; [assumption|]. replace (S1 * S1 + S2 * S2) with (S1 ^ 2 + S2 ^ 2) by ring. exact NZ. }
  match goal with |- context [@nmul _ (@root _ ?z) (@sgn _ c)] => replace z with (S1 ^ 2) by (symmetry; exact S1SQ) end. cbn [root nmul nsub reals]. replace (S1 ^ 2 + S2 ^ 2 - S1 ^ 2) with (S2 ^ 2) by ring. rewrite Ec, Es, !sgn_scale by exact R0. rewrite !sgn_abs. reflexivity.
Qed.
Theorem params_error : forall I d l p h, d < l -> @from_params N I d l p h = Err RuntimeError.
Proof. intros. unfold from_params. cbn [ltb reals]. destruct (Rlt_dec d l); [reflexivity|contradiction]. Qed.
End Real.
