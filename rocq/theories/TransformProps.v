(* Properties C30, C31, C61 and C62: transformations of the image plane. *)
From Verif Require Import TransformModel TransformSpec TransformProofs TransformSetProofs TransformRigidProofs TransformTrimProofs TransformExProofs.
Local Open Scope Qc_scope.

(* C30: combining is applying one after the other, for every mix of kinds *)
Theorem C30_combine s t p q : old_point t p = Some q ->
  old_point (before s t) p = old_point s q /\ old_point (after t s) p = old_point s q.
Proof. exact (points_combined s t p q). Qed.
Print Assumptions C30_combine.
Example C30_combine_example : old_point ex_perspective (1, 0) = Some (Q2Qc (1 # 2), 0) /\
  old_point (before (Trn 1 0) ex_perspective) (1, 0) = Some (Q2Qc (3 # 2), 0).
Proof. split; apply opt_pair_eq; vm_compute; reflexivity. Qed.

Theorem C30_associative s t u : before (before s t) u = before s (before t u).
Proof. exact (before_assoc s t u). Qed.
Print Assumptions C30_associative.

(* a translation combines as its matrix does *)
Theorem C30_mixed s t k : forall p, old_point (written_as_matrix k s) p = old_point s p /\
  old_point (before (written_as_matrix k s) t) p = old_point (before s t) p /\
  old_point (before t (written_as_matrix k s)) p = old_point (before t s) p.
Proof. exact (matrix_same_map s t k). Qed.
Print Assumptions C30_mixed.

(* the inverse: when there is one, and what it does *)
Theorem C30_inverse_defined s :
  (invertible s -> exists i, inverse s = Ok i) /\ (~ invertible s -> inverse s = Err LinAlgError).
Proof. exact (inverse_defined s). Qed.
Print Assumptions C30_inverse_defined.
Theorem C30_inverse s i p q : inverse s = Ok i -> old_point s p = Some q -> old_point i q = Some p.
Proof. exact (inverse_undoes s i p q). Qed.
Print Assumptions C30_inverse.
Theorem C30_inverse_twice s i : inverse s = Ok i -> inverse i = Ok s.
Proof. exact (inverse_twice s i). Qed.
Print Assumptions C30_inverse_twice.
Example C30_inverse_example : invertible ex_perspective /\ ~ invertible (Lin Affine (M33 1 1 0 1 1 0 0 0 1)).
Proof.
  split; cbn [invertible ex_perspective]; [|intros N; apply N; qc_compute].
  intros H. apply (f_equal this) in H. vm_compute in H. discriminate H.
Qed.

(* changing frame: what it does to points, and twice is once by the combination *)
Theorem C30_frame s C s' p q q' : new_frame s C = Ok s' ->
  old_point C p = Some q -> old_point s q = Some q' ->
  forall p', old_point C p' = Some q' -> old_point s' p = Some p'.
Proof. exact (new_frame_points s C s' p q q'). Qed.
Print Assumptions C30_frame.
Example C30_frame_example : exists s', new_frame (Lin Affine ex_affine) (Trn 1 0) = Ok s' /\
  old_point s' (1, 1) = Some (Qc_of_Z 7, Qc_of_Z 5).
Proof. eexists. split; [reflexivity|]. apply opt_pair_eq. vm_compute. reflexivity. Qed.
Theorem C30_frames s C D : (let! s' := new_frame s C in new_frame s' D) = new_frame s (before C D).
Proof. exact (frames_combine s C D). Qed.
Print Assumptions C30_frames.
Theorem C30_frame_inplace s C : new_frame_inplace s C = new_frame s C.
Proof. exact (new_frame_inplace_same s C). Qed.
Print Assumptions C30_frame_inplace.

(* the coordinate functions compute these maps on points with third coordinate 1 *)
Theorem C30_coordinates s x y :
  (exists v, transformcoordinatesinverse s [x; y; 1] = Ok v /\ dehom v = old_point s (x, y)) /\
  (forall v, transformcoordinates s v = (let! i := inverse s in transformcoordinatesinverse i v)).
Proof. exact (conj (coordinates_points s x y) (coordinates_inverse s)). Qed.
Print Assumptions C30_coordinates.
Theorem C30_coordinates_combine s t x y : well_kinded t -> not_projective t ->
  exists u, transformcoordinatesinverse t [x; y; 1] = Ok u /\
    transformcoordinatesinverse (before s t) [x; y; 1] = transformcoordinatesinverse s u.
Proof. exact (coordinates_compose s t x y). Qed.
Print Assumptions C30_coordinates_combine.
Example C30_coordinates_combine_example : well_kinded (Lin Affine ex_affine) /\ not_projective (Lin Affine ex_affine).
Proof. split; [split; [reflexivity|split; reflexivity]|exact I]. Qed.
Theorem C30_coordinates_shape s v :
  (exists w, transformcoordinatesinverse s v = Ok w) <->
  (length v = 3%nat \/ (length v = 2%nat /\ kind_of s = None)).
Proof. exact (coordinates_shapes s v). Qed.
Print Assumptions C30_coordinates_shape.
(* after a perspective the third coordinate is not 1, and then a translation is wrong *)
Theorem C30_homogeneous_refuted : exists s t x y u, transformcoordinatesinverse t [x; y; 1] = Ok u /\
  exists v w, transformcoordinatesinverse s u = Ok v /\ transformcoordinatesinverse (before s t) [x; y; 1] = Ok w /\
    dehom w = old_point (before s t) (x, y) /\ dehom v <> dehom w.
Proof. exact homogeneous_wrong. Qed.
Print Assumptions C30_homogeneous_refuted.

(* combinations and inverses are of the kind they say *)
Theorem C30_kinds s t : well_kinded s -> well_kinded t ->
  well_kinded (before s t) /\ (forall i, inverse s = Ok i -> well_kinded i).
Proof. exact (fun Hs Ht => conj (before_kinded s t Hs Ht) (fun i => inverse_kinded s i Hs)). Qed.
Print Assumptions C30_kinds.

(* C31: setting the parts *)
Theorem C31_translation s x y :
  let s' := settranslation s (TrnXY x y) in
  gettranslation s' = (x, y) /\ translation_of s' = (x, y) /\ linear_of s' = linear_of s /\ last_row_of s' = last_row_of s /\
  (well_kinded s -> well_kinded s').
Proof. exact (settranslation_ok s x y). Qed.
Print Assumptions C31_translation.
Theorem C31_linear s M :
  let s' := setlinear s M in
  getlinear s' = M /\ linear_of s' = M /\ translation_of s' = translation_of s /\ last_row_of s' = last_row_of s /\
  (well_kinded s -> freeform s -> well_kinded s').
Proof. exact (setlinear_ok s M). Qed.
Print Assumptions C31_linear.
Theorem C31_affine s M :
  let s' := setaffine s M in
  linear_of s' = M22 (c00 M) (c01 M) (c10 M) (c11 M) /\ translation_of s' = (c02 M, c12 M) /\
  last_row_of s' = last_row_of s /\ (well_kinded s -> freeform s -> well_kinded s').
Proof. exact (setaffine_ok s M). Qed.
Print Assumptions C31_affine.
Theorem C31_projective s M :
  getprojective (setprojective s M) = M /\
  (match s with Trn _ _ | Lin Projective _ => True | _ => False end -> well_kinded (setprojective s M)).
Proof. exact (setprojective_ok s M). Qed.
Print Assumptions C31_projective.
Theorem C31_rigid k m c sn tx ty :
  exists k' m', setrigid (Lin k m) c sn tx ty = (Lin k' m', None) /\
    lin22 m' = M22 c (- sn) sn c /\ (a02 m', a12 m') = (tx, ty) /\
    (a20 m', a21 m', a22 m') = (a20 m, a21 m, a22 m) /\
    (k <> Projective -> k' = Rigid) /\ (k = Projective -> k' = Projective) /\
    (well_kinded (Lin k m) -> c * c + sn * sn = 1 -> well_kinded (Lin k' m')).
Proof. exact (setrigid_lin k m c sn tx ty). Qed.
Print Assumptions C31_rigid.
Example C31_rigid_example : q35 * q35 + q45 * q45 = 1 /\ well_kinded (Lin Affine ex_affine).
Proof. split; [exact ex_unit|]. split; [reflexivity|split; reflexivity]. Qed.
Theorem C31_identity s : isidentity (setidentity s) = true /\ (forall p, old_point (setidentity s) p = Some p).
Proof. exact (setidentity_ok s). Qed.
Print Assumptions C31_identity.
Theorem C31_isidentity s : well_kinded s -> not_projective s ->
  ((forall p, old_point s p = Some p) <-> isidentity s = true).
Proof. exact (isidentity_points s). Qed.
Print Assumptions C31_isidentity.
Theorem C31_fromtransform s t :
  (fromtransform s t = Ok t <-> match s, t with Trn _ _, Trn _ _ | Lin _ _, Lin _ _ => True | _, _ => False end) /\
  (fromtransform s t <> Ok t -> fromtransform s t = Err ValueError).
Proof. exact (fromtransform_ok s t). Qed.
Print Assumptions C31_fromtransform.
(* the affine part is never reported as it was set *)
Theorem C31_affine_refuted s M : getaffine (setaffine s M) <> rows23 M.
Proof. exact (setaffine_getaffine s M). Qed.
Print Assumptions C31_affine_refuted.
Example C31_affine_refuted_example : getaffine (setaffine (Trn 1 (Qc_of_Z 2)) (M23 1 0 1 0 1 1)) = [[1; 0]; [0; 1]; [0; 0]].
Proof. exact setaffine_example. Qed.
(* the kind stays one that cannot represent what was set *)
Theorem C31_kind_refuted :
  (exists M, well_kinded (Lin Rigid id33) /\ ~ well_kinded (setlinear (Lin Rigid id33) M)) /\
  (exists M, well_kinded (Lin Affine id33) /\ ~ well_kinded (setprojective (Lin Affine id33) M) /\
     M = homography ex_perspective).
Proof. exact setters_keep_kind. Qed.
Print Assumptions C31_kind_refuted.
(* a rotation and the opposite rotation report the same angle *)
Theorem C31_angle_refuted : exists c s, c * c + s * s = 1 /\
  forall acos m, fst (setrigid (Lin Rigid m) c s 0 0) <> fst (setrigid (Lin Rigid m) c (- s) 0 0) /\
    getrigid acos (fst (setrigid (Lin Rigid m) c s 0 0)) = getrigid acos (fst (setrigid (Lin Rigid m) c (- s) 0 0)).
Proof. exact angles_lost. Qed.
Print Assumptions C31_angle_refuted.
(* a translation cannot be made rigid, and a projective one does not report its rigid part *)
Theorem C31_rigid_refuted : (exists s, well_kinded s /\ setrigid s 1 0 1 1 = (Trn 0 0, Some IndexError)) /\
  (exists s acos, well_kinded s /\ getrigid acos (fst (setrigid s 1 0 1 1)) = Err ValueError /\ snd (setrigid s 1 0 1 1) = None).
Proof. exact rigid_refused. Qed.
Print Assumptions C31_rigid_refuted.

(* C61: the transformed image has at every pixel the value of the image at the old position *)
Theorem C61_image_partial {V} s (img : image V) : well_kinded s ->
  match s with Trn _ _ | Lin Rigid _ | Lin Similarity _ => True | Lin Affine m => a00 m = a11 m | Lin Projective _ => False end ->
  exists img', transformimage s img = Ok img' /\
    forall r c, exists x y, old_point s (c, r) = Some (x, y) /\ img' r c = img y x.
Proof. exact (image_sampled s img). Qed.
Print Assumptions C61_image_partial.
Example C61_image_example : well_kinded (Lin Rigid (rigid_matrix q35 q45 1 (Qc_of_Z 2))).
Proof.
  split; [split; [reflexivity|split; reflexivity]|]. split; [split; [reflexivity|]|]; qc_compute.
Qed.
Theorem C61_affine m : is_affine m -> lin22 m <> id22 ->
  ((forall img : image (Qc * Qc), exists img', transformimage (Lin Affine m) img = Ok img' /\
      forall r c, exists x y, old_point (Lin Affine m) (c, r) = Some (x, y) /\ img' r c = img y x)
   <-> a00 m = a11 m).
Proof. exact (image_sampled_iff m). Qed.
Print Assumptions C61_affine.
Example C61_affine_example : is_affine ex_affine /\ lin22 ex_affine <> id22.
Proof. split; [split; [reflexivity|split; reflexivity]|]. intros H. apply (f_equal (fun M => this (b00 M))) in H. discriminate H. Qed.
Theorem C61_projective {V} k m (img : image V) : lin22 m <> id22 -> (a20 m, a21 m) <> (0, 0) ->
  transformimage (Lin k m) img = Err NotImplementedError.
Proof. exact (image_projective k m img). Qed.
Print Assumptions C61_projective.
Theorem C61_stretch_refuted (s := ex_stretch) : well_kinded s /\
  exists (img img' : image Qc), transformimage s img = Ok img' /\ exists r c x y, old_point s (c, r) = Some (x, y) /\ img' r c <> img y x.
Proof. exact image_wrong. Qed.
Print Assumptions C61_stretch_refuted.
Theorem C61_perspective_refuted (s := ex_perspective) : well_kinded s /\
  exists (img img' : image Qc), transformimage s img = Ok img' /\ exists r c x y, old_point s (c, r) = Some (x, y) /\ img' r c <> img y x.
Proof. exact image_perspective_wrong. Qed.
Print Assumptions C61_perspective_refuted.

(* C62: key points that correspond exactly give the transformation back *)
Theorem C62_translation lstsq svd x0 y0 tx ty kps : kps <> [] -> exact_keypoints (Trn tx ty) kps ->
  fromkeypoints lstsq svd (Trn x0 y0) kps = Ok (Some (Trn tx ty)).
Proof. exact (translation_recovered lstsq svd x0 y0 tx ty kps). Qed.
Print Assumptions C62_translation.
Example C62_translation_example : exact_keypoints (Trn 1 (Qc_of_Z 2)) [((1, Qc_of_Z 2), (0, 0)); ((Qc_of_Z 2, Qc_of_Z 2), (1, 0))].
Proof. repeat (constructor; [cbn [fst snd]; apply opt_pair_eq; vm_compute; reflexivity|]). constructor. Qed.
(* not even when a tenth of the key points is wrong *)
Theorem C62_outliers lstsq svd x0 y0 tx ty kps good bad : kps <> [] -> Permutation kps (good ++ bad) ->
  exact_keypoints (Trn tx ty) good -> (length bad <= length kps / 10)%nat ->
  fromkeypoints lstsq svd (Trn x0 y0) kps = Ok (Some (Trn tx ty)).
Proof. exact (translation_robust lstsq svd x0 y0 tx ty kps good bad). Qed.
Print Assumptions C62_outliers.
Example C62_outliers_example : Permutation (ex_bad :: ex_goods) (ex_goods ++ [ex_bad]) /\ exact_keypoints (Trn 1 (Qc_of_Z 2)) ex_goods /\
  (length [ex_bad] <= length (ex_bad :: ex_goods) / 10)%nat.
Proof. exact ex_robust. Qed.
Theorem C62_similarity lstsq svd m0 m kps : is_affine m -> is_similarity m -> exact_keypoints (Lin Similarity m) kps ->
  solves lstsq 4 (flat_map similarity_rows kps) ->
  (exists p q, In p (map snd kps) /\ In q (map snd kps) /\ p <> q) ->
  fromkeypoints lstsq svd (Lin Similarity m0) kps = Ok (Some (Lin Similarity m)).
Proof. exact (similarity_recovered lstsq svd m0 m kps). Qed.
Print Assumptions C62_similarity.
Example C62_similarity_example : exists kps lstsq, exact_keypoints (Lin Similarity (M33 0 (- (Qc_of_Z 2)) 1 (Qc_of_Z 2) 0 0 0 0 1)) kps /\
  solves lstsq 4 (flat_map similarity_rows kps) /\ exists p q, In p (map snd kps) /\ In q (map snd kps) /\ p <> q.
Proof. exact ex_similarity_keypoints. Qed.
Theorem C62_affine lstsq svd m0 m kps : is_affine m -> exact_keypoints (Lin Affine m) kps ->
  solves lstsq 6 (flat_map affine_rows kps) ->
  (exists p q r, In p (map snd kps) /\ In q (map snd kps) /\ In r (map snd kps) /\ area2 p q r <> 0) ->
  fromkeypoints lstsq svd (Lin Affine m0) kps = Ok (Some (Lin Affine m)).
Proof. exact (affine_recovered lstsq svd m0 m kps). Qed.
Print Assumptions C62_affine.
Example C62_affine_example : exists kps lstsq, exact_keypoints (Lin Affine ex_affine) kps /\
  solves lstsq 6 (flat_map affine_rows kps) /\
  exists p q r, In p (map snd kps) /\ In q (map snd kps) /\ In r (map snd kps) /\ area2 p q r <> 0.
Proof. exact ex_affine_keypoints. Qed.
(* rigid: the rotation is V^T.U^T, and the code gives it back exactly when V is symmetric.
   Fewer than ten key points, so that the centroids leave none out. *)
Theorem C62_rigid_partial c s tx ty : c * c + s * s = 1 -> forall svd m0 kps U V d1 d2,
  (length kps < 10)%nat -> kps <> [] -> exact_keypoints (Lin Rigid (rigid_matrix c s tx ty)) kps ->
  svd (keypoint_covariance kps) = (U, V) -> svd_of (keypoint_covariance kps) U V d1 d2 ->
  rotation c s = mul22 (transpose22 V) (transpose22 U) /\
  (transpose22 V = V -> rigid_fromkeypoints svd (Lin Rigid m0) kps = Some (Lin Rigid (rigid_matrix c s tx ty))) /\
  (transpose22 V <> V -> forall r, rigid_fromkeypoints svd (Lin Rigid m0) kps = Some r -> getlinear r <> rotation c s).
Proof. exact (rigid_result c s tx ty). Qed.
Print Assumptions C62_rigid_partial.
Example C62_rigid_example : exact_keypoints (Lin Rigid (rigid_matrix q35 q45 1 (Qc_of_Z 2))) ex_keypoints /\
  svd_of (keypoint_covariance ex_keypoints) (fst (ex_svd_reflection (keypoint_covariance ex_keypoints)))
    (snd (ex_svd_reflection (keypoint_covariance ex_keypoints))) (Qc_of_Z 8) (Qc_of_Z 2) /\
  transpose22 (snd (ex_svd_reflection (keypoint_covariance ex_keypoints))) = snd (ex_svd_reflection (keypoint_covariance ex_keypoints)).
Proof. exact (conj ex_keypoints_exact (conj ex_svd_reflection_ok eq_refl)). Qed.
Theorem C62_rigid_refuted : exists kps svd U V d1 d2, exact_keypoints (Lin Rigid (rigid_matrix q35 q45 1 (Qc_of_Z 2))) kps /\
  svd (keypoint_covariance kps) = (U, V) /\ svd_of (keypoint_covariance kps) U V d1 d2 /\
  forall lstsq r, fromkeypoints lstsq svd (Lin Rigid id33) kps = Ok (Some r) -> getlinear r <> rotation q35 q45.
Proof. exact rigid_wrong. Qed.
Print Assumptions C62_rigid_refuted.
Theorem C62_refused lstsq svd x0 y0 m kps : fromkeypoints lstsq svd (Trn x0 y0) [] = Ok None /\
  fromkeypoints lstsq svd (Lin Projective m) kps = Err NotImplementedError.
Proof. exact (conj (translation_no_keypoints lstsq svd x0 y0) (projective_keypoints lstsq svd m kps)). Qed.
Print Assumptions C62_refused.
