From Verif Require Import PolarModel PolarSpec PolarProofs PolarScatterProofs.
From Coq Require Import Lra Lia.
Local Open Scope R_scope.

Lemma tan_ratio r x : 0 < r -> r * sin x / (r * cos x) = tan x.
Proof. intros H. unfold tan. destruct (Req_EM_T (cos x) 0) as [E|E]; [|field; lra]. rewrite E. unfold Rdiv. rewrite Rmult_0_r, Rinv_0. ring. Qed.
Lemma arctan2_back r x : 0 < r -> - PI < x <= PI -> arctan2 (r * sin x) (r * cos x) = x.
Proof.
  intros Hr Hx. unfold arctan2. pose proof PI_RGT_0 as HP. rewrite (tan_ratio r x Hr).
  destruct (Rlt_dec (- (PI / 2)) x) as [A|A]; [destruct (Rlt_dec x (PI / 2)) as [B|B]|].
  - assert (0 < cos x) by (apply cos_gt_0; lra). destruct (Rlt_dec 0 (r * cos x)) as [_|X]; [|nra]. apply atan_tan. lra.
  - destruct (Req_EM_T x (PI / 2)) as [->|NE].
    + rewrite cos_PI2, sin_PI2. destruct (Rlt_dec 0 (r * 0)); [lra|]. destruct (Rlt_dec (r * 0) 0); [lra|]. destruct (Rlt_dec 0 (r * 1)); [reflexivity|lra].
    + assert (C : cos x < 0) by (apply cos_lt_0; lra). destruct (Rlt_dec 0 (r * cos x)); [nra|]. destruct (Rlt_dec (r * cos x) 0); [|nra].
      assert (0 <= sin x) by (apply sin_ge_0; lra). destruct (Rlt_dec (r * sin x) 0); [nra|].
      replace (tan x) with (tan (x - PI)); [rewrite atan_tan; lra|]. unfold tan. replace x with (x - PI + PI) at 3 4 by ring. rewrite neg_sin, neg_cos. field.
      intros E. apply (f_equal Ropp) in E. rewrite <- neg_cos in E. replace (x - PI + PI) with x in E by ring. lra.
  - destruct (Req_EM_T x (- (PI / 2))) as [->|NE].
    + rewrite cos_neg, sin_neg, cos_PI2, sin_PI2. destruct (Rlt_dec 0 (r * 0)); [lra|]. destruct (Rlt_dec (r * 0) 0); [lra|]. destruct (Rlt_dec 0 (r * - (1))); [lra|]. destruct (Rlt_dec (r * - (1)) 0); [reflexivity|lra].
    + assert (E : cos x = - cos (x + PI)) by (rewrite neg_cos; ring). assert (F : sin x = - sin (x + PI)) by (rewrite neg_sin; ring).
      assert (C : 0 < cos (x + PI)) by (apply cos_gt_0; lra). destruct (Rlt_dec 0 (r * cos x)); [nra|]. destruct (Rlt_dec (r * cos x) 0); [|nra].
      assert (0 < sin (x + PI)) by (apply sin_gt_0; lra). destruct (Rlt_dec (r * sin x) 0); [|nra].
      replace (tan x) with (tan (x + PI)); [rewrite atan_tan; lra|]. unfold tan. rewrite E, F. field. lra.
Qed.

Section Real.
Variables eps el : R.
Notation N := (reals eps el).
Lemma sgn_root a c : 0 <= a -> sqrt ((a * c) ^ 2) * @sgn N c = a * c.
Proof.
  intros A. destruct (Rtotal_order c 0) as [H|[H|H]]; unfold sgn; cbn [ltb n0 n1 nopp reals].
  - destruct (Rlt_dec 0 c); [lra|]. destruct (Rlt_dec c 0); [|lra]. replace ((a * c) ^ 2) with ((a * - c) ^ 2) by ring. rewrite sqrt_pow2 by nra. ring.
  - subst c. destruct (Rlt_dec 0 0); [lra|]. ring.
  - destruct (Rlt_dec 0 c); [|lra]. rewrite sqrt_pow2 by nra. ring.
Qed.
Theorem params_form : forall I d l p h, 0 < eps -> 0 <= I -> 0 <= l <= d ->
  let S0 := 2 * I / eps in
  @from_params N I d l p h = Ok (S0, S0 * l * cosine (2 * p), S0 * l * sine (2 * p), signed h (S0 * sqrt (d ^ 2 - l ^ 2))).
Proof.
  intros I d l p h E HI HL S0. unfold from_params. cbn [ltb reals]. destruct (Rlt_dec d l); [lra|].
  assert (P0 : 0 <= S0) by (unfold S0; apply Rle_mult_inv_pos; lra).
  assert (I0 : @intensity_to_jonesnormsq N I = S0) by (unfold S0; plain; field; lra). rewrite I0. clear I0. clearbody S0.
  assert (C : @cos_deg N (@nmul N (@two N) p) = cosine (2 * p)) by (plain; unfold cosine; f_equal; field).
  assert (D : @sin_deg N (@nmul N (@two N) p) = sine (2 * p)) by (plain; unfold sine; f_equal; field).
  rewrite C, D. clear C D. pose proof (cs1 (2 * p)) as H. set (c := cosine (2 * p)) in *. set (s := sine (2 * p)) in *. clearbody c s.
  assert (S1SQ : (if (if Req_EM_T c 0 then true else false) then 0 else @ndiv N (@sq N (@nmul N l S0)) (@nadd N (@n1 N) (@sq N (@ndiv N s c)))) = (S0 * l * c) ^ 2).
  { plain. destruct (Req_EM_T c 0) as [C0|C0]; [rewrite C0; ring|]. replace (1 + s / c * (s / c)) with (1 / (c * c)) by (apply (Rmult_eq_reg_r (c * c)); [field_simplify; [lra|assumption|assumption]|nra]). field. exact C0. }
  cbn [eqb n0 reals]. match goal with |- context [@nmul _ (@root _ ?z) (@sgn _ c)] => replace z with ((S0 * l * c) ^ 2) by (symmetry; exact S1SQ) end. clear S1SQ.
  assert (L : 0 <= S0 * l) by (apply Rmult_le_pos; lra).
  assert (X2 : @root N (@nsub N (@sq N (@nmul N l S0)) ((S0 * l * c) ^ 2)) = sqrt ((S0 * l * s) ^ 2)).
  { plain. f_equal. transitivity ((S0 * l) ^ 2 * (c * c + s * s) - (S0 * l * c) ^ 2); [rewrite H; ring|ring]. }
  assert (X3 : @root N (@nsub N (@sq N (@nmul N d S0)) (@sq N (@nmul N l S0))) = S0 * sqrt (d ^ 2 - l ^ 2)).
  { plain. replace (d * S0 * (d * S0) - l * S0 * (l * S0)) with (S0 ^ 2 * (d ^ 2 - l ^ 2)) by ring. rewrite sqrt_mult_alt by nra. now rewrite sqrt_pow2. }
  rewrite X2, X3. pose proof (sgn_root _ c L) as G1. pose proof (sgn_root _ s L) as G2. cbn [nmul root reals]. apply ok2, pair2; [|destruct h; reflexivity]. apply pair2; [apply pair2; [reflexivity|]|]; [exact G1|exact G2].
Qed.
Theorem params_back : forall I d l p h, 0 < eps -> 0 < I -> 0 <= l <= d -> exists S, @from_params N I d l p h = Ok S /\
  @intensity N S = I /\ @dop N S = d /\ @dolp N S = l /\ (0 < l -> -90 < p <= 90 -> @polangle N S = p) /\ (l < d -> h <> NoHand -> @handedness N S = h) /\ (l = d -> @handedness N S = NoHand).
Proof.
  intros I d l p h E HI HL. eexists. split; [apply params_form; lra|]. set (S0 := 2 * I / eps). assert (P0 : 0 < S0) by (unfold S0; apply Rdiv_lt_0_compat; lra).
  pose proof (cs1 (2 * p)) as H. rewrite dop_form, dolp_form.
  assert (Q : 0 <= d ^ 2 - l ^ 2) by nra. assert (R2 : sqrt (d ^ 2 - l ^ 2) * sqrt (d ^ 2 - l ^ 2) = d ^ 2 - l ^ 2) by (now apply sqrt_sqrt).
  assert (SG : signed h (S0 * sqrt (d ^ 2 - l ^ 2)) ^ 2 = S0 ^ 2 * (d ^ 2 - l ^ 2)) by (set (q := sqrt (d ^ 2 - l ^ 2)) in *; clearbody q; rewrite <- R2; destruct h; cbn [signed]; ring).
  assert (LI : (S0 * l * cosine (2 * p)) ^ 2 + (S0 * l * sine (2 * p)) ^ 2 = (S0 * l) ^ 2) by (transitivity ((S0 * l) ^ 2 * (cosine (2 * p) * cosine (2 * p) + sine (2 * p) * sine (2 * p))); [ring|rewrite H; ring]).
  split; [unfold S0; plain; field; lra|]. split.
  { rewrite LI, SG. replace ((S0 * l) ^ 2 + S0 ^ 2 * (d ^ 2 - l ^ 2)) with ((S0 * d) ^ 2) by ring. rewrite sqrt_pow2 by nra. real. field. lra. }
  split. { rewrite LI, sqrt_pow2 by nra. real. field. lra. }
  split. { intros HP PP. pose proof PI_RGT_0. unfold polangle. cbn [atan2d ndiv two n1 nadd reals]. unfold cosine, sine. rewrite arctan2_back; [real; field; lra|nra|]. split; nra. }
  split.
  - intros LT NH. assert (0 < sqrt (d ^ 2 - l ^ 2)) by (apply sqrt_lt_R0; nra). assert (0 < S0 * sqrt (d ^ 2 - l ^ 2)) by nra. unfold handedness. cbn [ltb n0 reals].
    destruct h; cbn [signed]; [|destruct (Rlt_dec 0 (- (S0 * sqrt (d ^ 2 - l ^ 2)))); [lra|]; destruct (Rlt_dec (- (S0 * sqrt (d ^ 2 - l ^ 2))) 0); [reflexivity|lra]|congruence].
    destruct (Rlt_dec 0 (S0 * sqrt (d ^ 2 - l ^ 2))); [reflexivity|lra].
  - intros EQ. subst l. replace (d ^ 2 - d ^ 2) with 0 by ring. rewrite sqrt_0, Rmult_0_r. unfold handedness. cbn [ltb n0 reals].
    destruct h; cbn [signed]; rewrite ?Ropp_0; destruct (Rlt_dec 0 0); try lra; reflexivity.
Qed.

(* ---- the Mueller matrix of a Jones matrix ---- *)
Theorem mueller_symmetric : forall (a b d : R * R) (J : (R * R) * (R * R)), exists J', apply_jones eps el [[a; b]; [b; d]] J = Ok J' /\
  apply_mueller eps el (@jones_to_mueller N [[a; b]; [b; d]]) (stokes_def J) = map (@creal N) (@svec N (stokes_def J')).
Proof.
  intros [a1 a2] [b1 b2] [d1 d2] [[v1 v2] [w1 w2]]. eexists. split; [unfold apply_jones; plain; reflexivity|]. unfold apply_mueller, stokes_def, modulus2, cross. cbn [fst snd]. plain. unfold Rdiv. entries; field.
Qed.
(* a rotation of the axes by a right angle *)
Theorem mueller_refuted : let M := @cmat N (@JonesMatrixRotation N 90) in let J := ((1, 0), (0, 0)) in
  apply_jones eps el M J = Ok ((0, 0), (1, 0)) /\
  map (@creal N) (@svec N (stokes_def ((0, 0), (1, 0)))) = [(1, 0); (- (1), 0); (0, 0); (0, 0)] /\
  apply_mueller eps el (@jones_to_mueller N M) (stokes_def J) = [(- (1), 0); (1, 0); (0, 0); (0, 0)].
Proof.
  assert (M90 : @cmat N (@JonesMatrixRotation N 90) = [[(0, 0); (- (1), 0)]; [(1, 0); (0, 0)]]).
  { plain. replace (90 * PI / 180) with (PI / 2) by field. rewrite cos_PI2, sin_PI2. reflexivity. }
  cbv zeta. rewrite M90. split; [|split]; unfold apply_jones, apply_mueller, stokes_def, modulus2, cross; cbn [fst snd]; plain; entries; field.
Qed.
(* the phase of the second component is lost when there is no first component *)
Theorem phase_refuted : let J := ((0, 0), (0, 1)) in @to_stokes N J = Ok (stokes_def J) /\ @to_jones N (stokes_def J) false (@phase0 N J) = Ok ((0, 0), (1, 0)).
Proof.
  cbv zeta. split; [apply to_stokes_ok|]. unfold to_jones. rewrite fully_polarized by (intros X; apply (f_equal (fun J : (R * R) * (R * R) => snd (snd J))) in X; cbn in X; lra). cbn [nsub n1 n0 eqb reals]. destruct (Req_EM_T (1 - 1) 0) as [_|X]; [|lra]. cbn [bind].
  assert (C : @coherency_stokes N (stokes_def ((0, 0), (0, 1))) = [[(0, 0); (0, 0)]; [(0, 0); (1, 0)]]) by (unfold stokes_def, modulus2, cross; cbn [fst snd]; plain; entries; field).
  rewrite C. unfold coherency_to_jones. rewrite (proj2 (hermitian_iff eps el (0, 0) (0, 0) (0, 0) (1, 0))) by (cbn [fst snd]; rewrite Ropp_0; auto).
  assert (Z : arctan2 0 0 = 0) by (unfold arctan2; destruct (Rlt_dec 0 0); [lra|reflexivity]). cbn [fst]. rewrite !csqrt_ok by lra. unfold phase0, phase. cbn [fst snd atan2d nadd reals]. rewrite Z.
  unfold expi, cmul. cbn [fst snd cos_deg sin_deg nsub nadd nmul n0 reals]. replace (0 * 180 / PI * PI / 180) with 0 by (field; apply PI_neq0). replace ((0 * 180 / PI + 0 * 180 / PI) * PI / 180) with 0 by (field; apply PI_neq0).
  rewrite cos_0, sin_0, sqrt_0, sqrt_1. entries; ring.
Qed.
End Real.
