From Verif Require Import BaseProofs MatProofs TransformProofs TransformSetProofs TransformSpec.
Local Open Scope Qc_scope.

Lemma m22_eq p q : b00 p = b00 q -> b01 p = b01 q -> b10 p = b10 q -> b11 p = b11 q -> p = q.
Proof. destruct p, q; cbn. intros; subst; reflexivity. Qed.
Ltac m22 := unfold mul22, transpose22, id22; apply m22_eq; cbn [b00 b01 b10 b11]; ring.

Lemma mul22_assoc p q r : mul22 (mul22 p q) r = mul22 p (mul22 q r).
Proof. m22. Qed.
Lemma mul22_id_r p : mul22 p id22 = p.
Proof. m22. Qed.
Lemma mul22_id_l p : mul22 id22 p = p.
Proof. m22. Qed.
Lemma transpose_mul p q : transpose22 (mul22 p q) = mul22 (transpose22 q) (transpose22 p).
Proof. m22. Qed.
Lemma transpose_twice p : transpose22 (transpose22 p) = p.
Proof. destruct p; reflexivity. Qed.
Definition det22 (p : m22) : Qc := b00 p * b11 p - b01 p * b10 p.
Definition tr22 (p : m22) : Qc := b00 p + b11 p.
Lemma det22_mul p q : det22 (mul22 p q) = det22 p * det22 q.
Proof. unfold det22, mul22. cbn [b00 b01 b10 b11]. ring. Qed.
Lemma tr22_mul p q : tr22 (mul22 p q) = tr22 (mul22 q p).
Proof. unfold tr22, mul22. cbn [b00 b01 b10 b11]. ring. Qed.

Lemma square_eq (a b : Qc) : 0 <= a -> 0 < b -> a * a = b * b -> a = b.
Proof.
  intros Ha Hb E.
  assert (F : (a - b) * (a + b) = 0) by (replace ((a - b) * (a + b)) with (a * a - b * b) by ring; rewrite E; ring).
  apply Qcmult_integral in F. destruct F as [F|F]; qclra.
Qed.

(* the symmetric positive square root is unique *)
Lemma polar_unique A P : b01 A = b10 A -> b01 P = b10 P -> mul22 A A = mul22 P P ->
  0 <= tr22 A -> 0 <= det22 A -> 0 < tr22 P -> 0 < det22 P -> A = P.
Proof.
  intros SA SP E TA DA TP DP.
  assert (D : det22 A = det22 P).
  { apply square_eq; [exact DA|exact DP|]. rewrite <- !det22_mul, E. reflexivity. }
  assert (CH : forall M, mul22 M M = M22 (tr22 M * b00 M - det22 M) (tr22 M * b01 M) (tr22 M * b10 M) (tr22 M * b11 M - det22 M)).
  { intros M. unfold mul22, tr22, det22. apply m22_eq; cbn [b00 b01 b10 b11]; ring. }
  assert (T : tr22 A = tr22 P).
  { apply square_eq; [exact TA|exact TP|].
    assert (TT : forall M, tr22 M * tr22 M = tr22 (mul22 M M) + (det22 M + det22 M)).
    { intros M. unfold mul22, tr22, det22. cbn [b00 b01 b10 b11]. ring. }
    rewrite !TT, E, D. reflexivity. }
  pose proof E as F. rewrite !CH in F. rewrite T, D in F.
  assert (N : tr22 P <> 0) by (intros Z; rewrite Z in TP; clear - TP; qclra).
  set (t := tr22 P) in *. set (d := det22 P) in *. clearbody t d.
  assert (X : forall a b, t * a = t * b -> a = b).
  { intros a b G. assert (Z : t * (a - b) = 0) by (replace (t * (a - b)) with (t * a - t * b) by ring; rewrite G; ring).
    apply Qcmult_integral in Z. destruct Z as [Z|Z]; [contradiction|]. clear - Z. qclra. }
  apply m22_eq; apply X.
  - apply (f_equal b00) in F. cbn [b00] in F. set (u := t * b00 A) in *. set (v := t * b00 P) in *. clearbody u v. clear - F. qclra.
  - exact (f_equal b01 F).
  - exact (f_equal b10 F).
  - apply (f_equal b11) in F. cbn [b11] in F. set (u := t * b11 A) in *. set (v := t * b11 P) in *. clearbody u v. clear - F. qclra.
Qed.

Lemma cancel_left A X Y : det22 A <> 0 -> mul22 A X = mul22 A Y -> X = Y.
Proof.
  intros D E.
  assert (J : forall M, mul22 (M22 (b11 A) (- b01 A) (- b10 A) (b00 A)) (mul22 A M) =
     M22 (det22 A * b00 M) (det22 A * b01 M) (det22 A * b10 M) (det22 A * b11 M)).
  { intros M. unfold det22, mul22. apply m22_eq; cbn [b00 b01 b10 b11]; ring. }
  pose proof (J X) as JX. rewrite E, (J Y) in JX. set (d := det22 A) in *. clearbody d.
  assert (C : forall a b, d * b = d * a -> a = b).
  { intros a b G. assert (Z : d * (a - b) = 0) by (replace (d * (a - b)) with (d * a - d * b) by ring; rewrite G; ring).
    apply Qcmult_integral in Z. destruct Z as [Z|Z]; [contradiction|]. clear - Z. qclra. }
  apply m22_eq; apply C; [exact (f_equal b00 JX)|exact (f_equal b01 JX)|exact (f_equal b10 JX)|exact (f_equal b11 JX)].
Qed.

(* S = A.R^T with A symmetric and positive: the singular vectors give R *)
Lemma svd_rotation A R U V d1 d2 : b01 A = b10 A -> 0 <= tr22 A -> 0 <= det22 A -> orthogonal R ->
  svd_of (mul22 A (transpose22 R)) U V d1 d2 -> R = mul22 (transpose22 V) (transpose22 U).
Proof.
  intros SA TA DA [R1 R2] ([U1 U2] & [V1 V2] & P1 & P2 & E).
  set (D := M22 d1 0 0 d2) in *. set (P := mul22 (mul22 U D) (transpose22 U)).
  assert (EP : mul22 A (transpose22 R) = mul22 P (mul22 U V)).
  { rewrite E. unfold P. rewrite !mul22_assoc. rewrite <- (mul22_assoc (transpose22 U) U V), U2, mul22_id_l. reflexivity. }
  assert (TA' : transpose22 A = A) by (destruct A; cbn in *; rewrite SA; reflexivity).
  assert (TP' : transpose22 P = P).
  { unfold P. rewrite !transpose_mul, transpose_twice, mul22_assoc. f_equal. }
  assert (SP : b01 P = b10 P) by (rewrite <- TP' at 1; reflexivity).
  assert (Q : mul22 (mul22 U V) (transpose22 (mul22 U V)) = id22).
  { rewrite transpose_mul, mul22_assoc, <- (mul22_assoc V), V1, mul22_id_l. exact U1. }
  assert (SQ : mul22 A A = mul22 P P).
  { assert (X : mul22 (mul22 A (transpose22 R)) (transpose22 (mul22 A (transpose22 R))) = mul22 A A).
    { rewrite transpose_mul, transpose_twice, TA', mul22_assoc, <- (mul22_assoc (transpose22 R)), R2, mul22_id_l. reflexivity. }
    rewrite <- X, EP, transpose_mul, TP', mul22_assoc, <- (mul22_assoc (mul22 U V)), Q, mul22_id_l. reflexivity. }
  assert (DU : det22 U * det22 U = 1).
  { assert (T : det22 (transpose22 U) = det22 U) by (unfold det22, transpose22; cbn [b00 b01 b10 b11]; ring).
    rewrite <- T at 2. rewrite <- det22_mul, U1. reflexivity. }
  assert (DP : det22 P = d1 * d2).
  { assert (T : det22 (transpose22 U) = det22 U) by (unfold det22, transpose22; cbn [b00 b01 b10 b11]; ring).
    unfold P. rewrite !det22_mul, T. replace (det22 D) with (d1 * d2) by (unfold det22, D; cbn [b00 b01 b10 b11]; ring).
    replace (det22 U * (d1 * d2) * det22 U) with (det22 U * det22 U * (d1 * d2)) by ring. rewrite DU. ring. }
  assert (TP : tr22 P = d1 + d2).
  { unfold P. rewrite tr22_mul, <- mul22_assoc, U2, mul22_id_l. unfold D, tr22. reflexivity. }
  assert (DP0 : 0 < det22 P) by (rewrite DP; clear - P1 P2; qcnra).
  assert (TP0 : 0 < tr22 P) by (rewrite TP; clear - P1 P2; qclra).
  assert (AP : A = P) by (apply polar_unique; assumption).
  assert (RT : transpose22 R = mul22 U V).
  { apply (cancel_left P); [intros Z; rewrite Z in DP0; clear - DP0; qclra|]. rewrite AP in EP. exact EP. }
  rewrite <- (transpose_twice R), RT, transpose_mul. reflexivity.
Qed.

(** ** Means *)
Lemma insert_perm a l : Permutation (insert_sorted a l) (a :: l).
Proof.
  induction l as [|b l IH]; [reflexivity|]. cbn [insert_sorted]. destruct (Qc_leb a b); [reflexivity|].
  rewrite IH. apply perm_swap.
Qed.
Lemma sort_perm l : Permutation (sort_values l) l.
Proof. induction l as [|a l IH]; [reflexivity|]. unfold sort_values in *. cbn [fold_right]. rewrite insert_perm, IH. reflexivity. Qed.
Lemma sum_perm l l' : Permutation l l' -> fold_right Qcplus 0 l = fold_right Qcplus 0 l'.
Proof.
  induction 1 as [|a l l' _ IH|a b l|l l' l'' _ IH1 _ IH2]; cbn [fold_right]; [reflexivity|rewrite IH; reflexivity|ring|congruence].
Qed.
Lemma centroid_small l : (length l < 10)%nat -> l <> [] ->
  centroid l = Some (fold_right Qcplus 0 l / Qc_of_Z (Z.of_nat (length l))).
Proof.
  intros H N. unfold centroid. rewrite (Nat.div_small _ _ H), !Nat.sub_0_r. cbn [skipn].
  rewrite firstn_all2 by (rewrite (Permutation_length (sort_perm l)); lia).
  unfold mean. rewrite (sum_perm _ _ (sort_perm l)), (Permutation_length (sort_perm l)).
  destruct (sort_values l) as [|a k] eqn:E; [|reflexivity].
  pose proof (Permutation_length (sort_perm l)) as L. rewrite E in L. destruct l; [contradiction|discriminate L].
Qed.

Lemma sum_linear (f g h : keypoint -> Qc) a b c l :
  (forall k, In k l -> f k = a * g k + b * h k + c) ->
  fold_right Qcplus 0 (map f l) =
    a * fold_right Qcplus 0 (map g l) + b * fold_right Qcplus 0 (map h l) + Qc_of_Z (Z.of_nat (length l)) * c.
Proof.
  induction l as [|k l IH]; intros H; cbn [map fold_right length].
  - change (Qc_of_Z (Z.of_nat 0)) with 0. ring.
  - rewrite IH by (intros k' I; apply H; right; exact I). rewrite (H k (or_introl eq_refl)).
    rewrite Nat2Z.inj_succ. unfold Z.succ. rewrite Qc_of_Z_plus. change (Qc_of_Z 1) with 1. ring.
Qed.

Lemma sum_of_linear (f g h : keypoint -> Qc) a b l : (forall k, In k l -> f k = a * g k + b * h k) ->
  sum_of f l = a * sum_of g l + b * sum_of h l.
Proof.
  intros H. unfold sum_of. rewrite (sum_linear f g h a b 0 l).
  - ring.
  - intros k I. rewrite (H k I). ring.
Qed.

(* Cauchy-Schwarz *)
Lemma gram_positive (f g : keypoint -> Qc) l :
  let A := M22 (sum_of (fun k => f k * f k) l) (sum_of (fun k => f k * g k) l)
               (sum_of (fun k => g k * f k) l) (sum_of (fun k => g k * g k) l) in
  b01 A = b10 A /\ 0 <= tr22 A /\ 0 <= det22 A.
Proof.
  cbv zeta. unfold tr22, det22. cbn [b00 b01 b10 b11].
  assert (H : sum_of (fun k => f k * g k) l = sum_of (fun k => g k * f k) l /\
     0 <= sum_of (fun k => f k * f k) l /\ 0 <= sum_of (fun k => g k * g k) l /\
     0 <= sum_of (fun k => f k * f k) l * sum_of (fun k => g k * g k) l - sum_of (fun k => f k * g k) l * sum_of (fun k => g k * f k) l).
  { unfold sum_of. induction l as [|k l IH]; cbn [map fold_right].
    - split; [reflexivity|]. split; [apply Qcle_refl|]. split; [apply Qcle_refl|].
      replace (0 * 0 - 0 * 0) with 0 by ring. apply Qcle_refl.
    - destruct IH as (E & Ha & Hb & Hd). rewrite E in *.
      set (a := fold_right Qcplus 0 (map (fun k => f k * f k) l)) in *.
      set (b := fold_right Qcplus 0 (map (fun k => g k * g k) l)) in *.
      set (c := fold_right Qcplus 0 (map (fun k => g k * f k) l)) in *.
      set (x := f k). set (y := g k). clearbody a b c x y. clear - Ha Hb Hd.
      split; [ring|]. split; [qcnra|]. split; [qcnra|].
      assert (X : (x * x + a) * (y * y + b) - (x * y + c) * (y * x + c) = (a * b - c * c) + (a * (y * y) + b * (x * x) - (x * y + x * y) * c)) by ring.
      rewrite X. clear X.
      assert (Y : 0 <= a * (y * y) + b * (x * x) - (x * y + x * y) * c).
      { destruct (Qc_lt_le_dec_bool 0 a) as [P|P].
        - assert (Z : a * (a * (y * y) + b * (x * x) - (x * y + x * y) * c) = (a * y - c * x) * (a * y - c * x) + (a * b - c * c) * (x * x)) by ring.
          assert (W : 0 <= a * (a * (y * y) + b * (x * x) - (x * y + x * y) * c)).
          { rewrite Z. pose proof (square_nonneg (a * y - c * x)) as S1. pose proof (square_nonneg x) as S2.
            set (s1 := (a * y - c * x) * (a * y - c * x)) in *. set (s2 := x * x) in *. set (s3 := a * b - c * c) in *.
            clearbody s1 s2 s3. clear - S1 S2 Hd. qcnra. }
          set (t := a * (y * y) + b * (x * x) - (x * y + x * y) * c) in *. clearbody t. clear - P W.
          destruct (Qc_lt_le_dec_bool t 0) as [N|N]; [|exact N]. exfalso. qcnra.
        - assert (A0 : a = 0) by (clear - P Ha; qclra). subst a.
          assert (C0 : c * c = 0) by (apply Qcle_antisym; [clear - Hd; qclra|apply square_nonneg]).
          apply Qcmult_integral in C0. assert (C : c = 0) by tauto. rewrite C.
          replace (0 * (y * y) + b * (x * x) - (x * y + x * y) * 0) with (b * (x * x)) by ring.
          pose proof (square_nonneg x) as S2. set (s2 := x * x) in *. clearbody s2. clear - S2 Hb. qcnra. }
      set (u := a * b - c * c) in *. set (v := a * (y * y) + b * (x * x) - (x * y + x * y) * c) in *. clearbody u v. clear - Hd Y. qclra. }
  destruct H as (E & Ha & Hb & Hd). split; [exact E|]. split; [|exact Hd].
  set (a := sum_of (fun k => f k * f k) l) in *. set (b := sum_of (fun k => g k * g k) l) in *. clearbody a b. clear - Ha Hb. qclra.
Qed.

Lemma rotation_orthogonal c s : c * c + s * s = 1 -> orthogonal (rotation c s).
Proof.
  intros H. split; unfold rotation, mul22, transpose22, id22; apply m22_eq; cbn [b00 b01 b10 b11]; try (rewrite <- H; ring); ring.
Qed.

Section Rigid.
Variables (c s tx ty : Qc).
Hypothesis unit : c * c + s * s = 1.


Lemma exact_rigid kps : exact_keypoints (Lin Rigid (rigid_matrix c s tx ty)) kps ->
  forall k, In k kps -> xsrc_of k = c * xdest_of k - s * ydest_of k + tx /\ ysrc_of k = s * xdest_of k + c * ydest_of k + ty.
Proof.
  intros H k I. unfold exact_keypoints in H. rewrite Forall_forall in H. specialize (H k I).
  destruct k as [[xs ys] [x y]]. unfold xsrc_of, ysrc_of, xdest_of, ydest_of. cbn [fst snd] in *.
  rewrite old_point_homography in H. cbn [homography rigid_matrix dehom a00 a01 a02 a10 a11 a12 a20 a21 a22] in H.
  assert (W : 0 * x + 0 * y + 1 = 1) by ring. rewrite W in H. replace (Qc_eqb 1 0) with false in H by reflexivity.
  injection H as <- <-. split; field; discriminate.
Qed.

Lemma covariance_rotation kps cx cy cx' cy' : exact_keypoints (Lin Rigid (rigid_matrix c s tx ty)) kps ->
  cx' = c * cx - s * cy + tx -> cy' = s * cx + c * cy + ty ->
  covariance kps cx cy cx' cy' =
  mul22 (M22 (sum_of (fun k => (xdest_of k - cx) * (xdest_of k - cx)) kps)
             (sum_of (fun k => (xdest_of k - cx) * (ydest_of k - cy)) kps)
             (sum_of (fun k => (ydest_of k - cy) * (xdest_of k - cx)) kps)
             (sum_of (fun k => (ydest_of k - cy) * (ydest_of k - cy)) kps)) (transpose22 (rotation c s)).
Proof.
  intros H -> ->. pose proof (exact_rigid kps H) as E.
  unfold covariance, mul22, transpose22, rotation. apply m22_eq; cbn [b00 b01 b10 b11].
  - rewrite (sum_of_linear _ (fun k => (xdest_of k - cx) * (xdest_of k - cx)) (fun k => (xdest_of k - cx) * (ydest_of k - cy)) c (- s)); [ring|].
    intros k I. destruct (E k I) as [-> _]. ring.
  - rewrite (sum_of_linear _ (fun k => (xdest_of k - cx) * (xdest_of k - cx)) (fun k => (xdest_of k - cx) * (ydest_of k - cy)) s c); [ring|].
    intros k I. destruct (E k I) as [_ ->]. ring.
  - rewrite (sum_of_linear _ (fun k => (ydest_of k - cy) * (xdest_of k - cx)) (fun k => (ydest_of k - cy) * (ydest_of k - cy)) c (- s)); [ring|].
    intros k I. destruct (E k I) as [-> _]. ring.
  - rewrite (sum_of_linear _ (fun k => (ydest_of k - cy) * (xdest_of k - cx)) (fun k => (ydest_of k - cy) * (ydest_of k - cy)) s c); [ring|].
    intros k I. destruct (E k I) as [_ ->]. ring.
Qed.


Lemma count_nonzero (kps : list keypoint) : kps <> [] -> Qc_of_Z (Z.of_nat (length kps)) <> 0.
Proof.
  intros N E. change 0 with (Qc_of_Z 0) in E. apply Qc_of_Z_inj in E. destruct kps; [contradiction|cbn in E; lia].
Qed.

Lemma mean_rotated kps : kps <> [] -> exact_keypoints (Lin Rigid (rigid_matrix c s tx ty)) kps ->
  meanof xsrc_of kps = c * meanof xdest_of kps - s * meanof ydest_of kps + tx /\
  meanof ysrc_of kps = s * meanof xdest_of kps + c * meanof ydest_of kps + ty.
Proof.
  intros N H. pose proof (exact_rigid kps H) as E. pose proof (count_nonzero kps N) as Z. unfold meanof.
  rewrite (sum_linear xsrc_of xdest_of ydest_of c (- s) tx kps) by (intros k I; destruct (E k I) as [-> _]; ring).
  rewrite (sum_linear ysrc_of xdest_of ydest_of s c ty kps) by (intros k I; destruct (E k I) as [_ ->]; ring).
  set (n := Qc_of_Z (Z.of_nat (length kps))) in *. clearbody n. split; field; exact Z.
Qed.

Theorem rigid_result svd m0 kps U V d1 d2 :
  (length kps < 10)%nat -> kps <> [] -> exact_keypoints (Lin Rigid (rigid_matrix c s tx ty)) kps ->
  svd (keypoint_covariance kps) = (U, V) -> svd_of (keypoint_covariance kps) U V d1 d2 ->
  rotation c s = mul22 (transpose22 V) (transpose22 U) /\
  (transpose22 V = V -> rigid_fromkeypoints svd (Lin Rigid m0) kps = Some (Lin Rigid (rigid_matrix c s tx ty))) /\
  (transpose22 V <> V -> forall r, rigid_fromkeypoints svd (Lin Rigid m0) kps = Some r -> getlinear r <> rotation c s).
Proof.
  intros L N H S1 S2. unfold keypoint_covariance in S1, S2.
  destruct (mean_rotated kps N H) as [M1 M2].
  assert (R : rotation c s = mul22 (transpose22 V) (transpose22 U)).
  { rewrite (covariance_rotation kps _ _ _ _ H M1 M2) in S2.
    destruct (gram_positive (fun k => xdest_of k - meanof xdest_of kps) (fun k => ydest_of k - meanof ydest_of kps) kps) as (G1 & G2 & G3).
    exact (svd_rotation _ _ U V d1 d2 G1 G2 G3 (rotation_orthogonal c s unit) S2). }
  assert (CE : forall f, centroid (map f kps) = Some (meanof f kps)).
  { intros f. rewrite centroid_small; [|rewrite map_length; exact L|destruct kps; [contradiction|discriminate]].
    rewrite map_length. reflexivity. }
  split; [exact R|]. unfold rigid_fromkeypoints. rewrite (CE xdest_of), (CE ydest_of), (CE xsrc_of), (CE ysrc_of).
  fold (covariance kps (meanof xdest_of kps) (meanof ydest_of kps) (meanof xsrc_of kps) (meanof ysrc_of kps)).
  rewrite S1. split.
  - intros SV. rewrite SV in R. rewrite <- R.
    assert (LN : (0 < length kps)%nat) by (destruct kps; [contradiction|cbn; lia]).
    pose proof (exact_rigid kps H) as E.
    assert (C1 : centroid (map (fun k => xsrc_of k - (b00 (rotation c s) * xdest_of k + b01 (rotation c s) * ydest_of k)) kps) = Some tx).
    { rewrite (map_const_repeat _ tx); [exact (centroid_repeat tx _ LN)|]. apply Forall_forall. intros k I.
      destruct (E k I) as [-> _]. unfold rotation. cbn [b00 b01]. ring. }
    assert (C2 : centroid (map (fun k => ysrc_of k - (b10 (rotation c s) * xdest_of k + b11 (rotation c s) * ydest_of k)) kps) = Some ty).
    { rewrite (map_const_repeat _ ty); [exact (centroid_repeat ty _ LN)|]. apply Forall_forall. intros k I.
      destruct (E k I) as [_ ->]. unfold rotation. cbn [b10 b11]. ring. }
    rewrite C1, C2. reflexivity.
  - intros SV r. rewrite !CE. intros E. injection E as <-.
    set (C := mul22 V (transpose22 U)). unfold getlinear, setlinear, setidentity, promote, settranslation, lin22, set_col2, set_lin.
    cbn [trn_values a00 a01 a10 a11].
    intros F. assert (F' : C = rotation c s) by (apply m22_eq; [exact (f_equal b00 F)|exact (f_equal b01 F)|exact (f_equal b10 F)|exact (f_equal b11 F)]).
    apply SV. destruct S2 as ([U1 U2] & _).
    assert (X : mul22 (mul22 V (transpose22 U)) U = mul22 (mul22 (transpose22 V) (transpose22 U)) U).
    { f_equal. rewrite <- R. exact F'. }
    rewrite !mul22_assoc, U2, !mul22_id_r in X. symmetry. exact X.
Qed.
End Rigid.
