From Verif Require Import BaseProofs MatProofs TransformProofs TransformSetProofs TransformRigidProofs TransformSpec.
Local Open Scope Qc_scope.

Lemma opt_pair_eq (o : option (Qc * Qc)) a b :
  match o with Some (x, y) => Qc_eqb x a && Qc_eqb y b | None => false end = true -> o = Some (a, b).
Proof.
  destruct o as [[x y]|]; [|discriminate]. rewrite andb_true_iff, !Qc_eqb_spec. intros [-> ->]. reflexivity.
Qed.
Lemma mapping_dec s t : match s, t with
  | Trn x y, Trn x' y' => Qc_eqb x x' && Qc_eqb y y'
  | Lin Rigid m, Lin Rigid m' | Lin Similarity m, Lin Similarity m' | Lin Affine m, Lin Affine m'
  | Lin Projective m, Lin Projective m' => eqb33 m m'
  | _, _ => false end = true -> s = t.
Proof.
  destruct s as [x y|[] m], t as [x' y'|[] m']; try discriminate.
  - rewrite andb_true_iff, !Qc_eqb_spec. intros [-> ->]. reflexivity.
  - rewrite eqb33_spec. intros ->. reflexivity.
  - rewrite eqb33_spec. intros ->. reflexivity.
  - rewrite eqb33_spec. intros ->. reflexivity.
  - rewrite eqb33_spec. intros ->. reflexivity.
Qed.
Lemma ok_inj {A} (a b : A) : Ok a = Ok b -> a = b.
Proof. intros E. injection E as E. exact E. Qed.
Ltac qc_compute := apply Qc_is_canon; vm_compute; reflexivity.

Theorem homogeneous_wrong : exists s t x y u, transformcoordinatesinverse t [x; y; 1] = Ok u /\
  exists v w, transformcoordinatesinverse s u = Ok v /\ transformcoordinatesinverse (before s t) [x; y; 1] = Ok w /\
    dehom w = old_point (before s t) (x, y) /\ dehom v <> dehom w.
Proof.
  exists (Trn 1 0), ex_perspective, 1, 0. eexists. split; [reflexivity|]. eexists _, _.
  split; [reflexivity|]. split; [reflexivity|]. split.
  - transitivity (Some (Q2Qc (3 # 2), 0)); [|symmetry]; apply opt_pair_eq; vm_compute; reflexivity.
  - intros H. apply (f_equal (option_map (fun p => (this (fst p), this (snd p))))) in H. vm_compute in H. discriminate H.
Qed.

(** ** Kinds that cannot represent what was set *)
Theorem setters_keep_kind :
  (exists M, well_kinded (Lin Rigid id33) /\ ~ well_kinded (setlinear (Lin Rigid id33) M)) /\
  (exists M, well_kinded (Lin Affine id33) /\ ~ well_kinded (setprojective (Lin Affine id33) M) /\
     M = homography ex_perspective).
Proof.
  assert (K : well_kinded (Lin Rigid id33)).
  { split; [split; [reflexivity|split; reflexivity]|]. split; [split; [reflexivity|qc_compute]|]. qc_compute. }
  split.
  - exists (M22 (Qc_of_Z 2) 0 0 1). split; [exact K|]. intros (_ & (S & _) & _).
    apply (f_equal this) in S. vm_compute in S. discriminate S.
  - eexists. split; [exact (proj1 K)|]. split; [|reflexivity].
    intros (L & _). apply (f_equal this) in L. vm_compute in L. discriminate L.
Qed.

Theorem setaffine_example : getaffine (setaffine (Trn 1 (Qc_of_Z 2)) (M23 1 0 1 0 1 1)) = [[1; 0]; [0; 1]; [0; 0]].
Proof. reflexivity. Qed.

Theorem angles_lost : exists c s, c * c + s * s = 1 /\
  forall acos m, fst (setrigid (Lin Rigid m) c s 0 0) <> fst (setrigid (Lin Rigid m) c (- s) 0 0) /\
    getrigid acos (fst (setrigid (Lin Rigid m) c s 0 0)) = getrigid acos (fst (setrigid (Lin Rigid m) c (- s) 0 0)).
Proof.
  exists q35, q45. split; [qc_compute|]. intros acos m. split; [|apply angle_sign].
  intros H. apply (f_equal (fun s => this (a10 (homography s)))) in H. vm_compute in H. discriminate H.
Qed.

Theorem rigid_refused : (exists s, well_kinded s /\ setrigid s 1 0 1 1 = (Trn 0 0, Some IndexError)) /\
  (exists s acos, well_kinded s /\ getrigid acos (fst (setrigid s 1 0 1 1)) = Err ValueError /\ snd (setrigid s 1 0 1 1) = None).
Proof.
  split; [exists (Trn 0 0)|exists (Lin Projective id33), (fun x => x)]; [split; [exact I|reflexivity]|].
  split; [exact I|]. split; reflexivity.
Qed.

(** ** Images *)
Theorem image_wrong (s := ex_stretch) : well_kinded s /\
  exists (img img' : image Qc), transformimage s img = Ok img' /\ exists r c x y, old_point s (c, r) = Some (x, y) /\ img' r c <> img y x.
Proof.
  split; [split; [reflexivity|split; reflexivity]|].
  exists (fun r c => r). eexists. split; [reflexivity|].
  exists 1, 0, 0, 1. split; [apply opt_pair_eq; vm_compute; reflexivity|].
  intros H. apply (f_equal this) in H. vm_compute in H. discriminate H.
Qed.

Theorem image_perspective_wrong (s := ex_perspective) : well_kinded s /\
  exists (img img' : image Qc), transformimage s img = Ok img' /\ exists r c x y, old_point s (c, r) = Some (x, y) /\ img' r c <> img y x.
Proof.
  split; [exact I|].
  exists (fun r c => c). eexists. split; [reflexivity|].
  exists 0, 1, (Q2Qc (1 # 2)), 0. split; [apply opt_pair_eq; vm_compute; reflexivity|].
  intros H. apply (f_equal this) in H. vm_compute in H. discriminate H.
Qed.

(** ** Key points *)
Lemma ex_keypoints_exact : exact_keypoints (Lin Rigid (rigid_matrix q35 q45 1 (Qc_of_Z 2))) ex_keypoints.
Proof.
  unfold exact_keypoints, ex_keypoints, ex_turned.
  repeat (constructor; [cbn [fst snd]; apply opt_pair_eq; vm_compute; reflexivity|]). constructor.
Qed.
Lemma ex_unit : q35 * q35 + q45 * q45 = 1.
Proof. qc_compute. Qed.
Lemma ex_svd_rotation_ok : svd_of (keypoint_covariance ex_keypoints)
  (fst (ex_svd_rotation (keypoint_covariance ex_keypoints))) (snd (ex_svd_rotation (keypoint_covariance ex_keypoints))) (Qc_of_Z 8) (Qc_of_Z 2).
Proof.
  split; [|split; [|split; [|split]]].
  - split; apply m22_eq; qc_compute.
  - split; apply m22_eq; qc_compute.
  - apply Qc_ltb_lt. vm_compute. reflexivity.
  - apply Qc_ltb_lt. vm_compute. reflexivity.
  - apply m22_eq; qc_compute.
Qed.
Lemma ex_svd_reflection_ok : svd_of (keypoint_covariance ex_keypoints)
  (fst (ex_svd_reflection (keypoint_covariance ex_keypoints))) (snd (ex_svd_reflection (keypoint_covariance ex_keypoints))) (Qc_of_Z 8) (Qc_of_Z 2).
Proof.
  split; [|split; [|split; [|split]]].
  - split; apply m22_eq; qc_compute.
  - split; apply m22_eq; qc_compute.
  - apply Qc_ltb_lt. vm_compute. reflexivity.
  - apply Qc_ltb_lt. vm_compute. reflexivity.
  - apply m22_eq; qc_compute.
Qed.

Theorem rigid_wrong : exists kps svd U V d1 d2, exact_keypoints (Lin Rigid (rigid_matrix q35 q45 1 (Qc_of_Z 2))) kps /\
  svd (keypoint_covariance kps) = (U, V) /\ svd_of (keypoint_covariance kps) U V d1 d2 /\
  forall lstsq r, fromkeypoints lstsq svd (Lin Rigid id33) kps = Ok (Some r) -> getlinear r <> rotation q35 q45.
Proof.
  exists ex_keypoints, ex_svd_rotation. eexists _, _, _, _. split; [exact ex_keypoints_exact|]. split; [reflexivity|].
  split; [exact ex_svd_rotation_ok|]. intros lstsq r E.
  change (Ok (rigid_fromkeypoints ex_svd_rotation (Lin Rigid id33) ex_keypoints) = Ok (Some r)) in E. apply ok_inj in E.
  assert (L : (length ex_keypoints < 10)%nat) by (cbn; lia).
  assert (N : ex_keypoints <> []) by discriminate.
  destruct (rigid_result q35 q45 1 (Qc_of_Z 2) ex_unit ex_svd_rotation id33 ex_keypoints _ _ _ _ L N ex_keypoints_exact eq_refl ex_svd_rotation_ok) as (_ & _ & W).
  apply W; [|exact E]. intros H. apply (f_equal (fun M => this (b01 M))) in H. vm_compute in H. discriminate H.
Qed.

Lemma ex_affine_keypoints : exists kps lstsq, exact_keypoints (Lin Affine ex_affine) kps /\
  solves lstsq 6 (flat_map affine_rows kps) /\
  exists p q r, In p (map snd kps) /\ In q (map snd kps) /\ In r (map snd kps) /\ area2 p q r <> 0.
Proof.
  exists [((Qc_of_Z 3, Qc_of_Z 4), (0, 0)); ((Qc_of_Z 5, Qc_of_Z 4), (1, 0)); ((Qc_of_Z 4, Qc_of_Z 5), (0, 1))],
    (fun _ _ => Some [Qc_of_Z 2; 1; Qc_of_Z 3; 0; 1; Qc_of_Z 4]).
  split; [|split].
  - repeat (constructor; [cbn [fst snd]; apply opt_pair_eq; vm_compute; reflexivity|]). constructor.
  - eexists. split; [reflexivity|]. split; [reflexivity|]. intros y _.
    match goal with |- ?a <= _ => assert (Z : a = 0) by qc_compute; rewrite Z end. apply sum_squares_nonneg.
  - exists (0, 0), (1, 0), (0, 1). cbn [map snd In]. split; [tauto|]. split; [tauto|]. split; [tauto|].
    intros H. apply (f_equal this) in H. vm_compute in H. discriminate H.
Qed.
Lemma ex_similarity_keypoints : exists kps lstsq, exact_keypoints (Lin Similarity (M33 0 (- (Qc_of_Z 2)) 1 (Qc_of_Z 2) 0 0 0 0 1)) kps /\
  solves lstsq 4 (flat_map similarity_rows kps) /\ exists p q, In p (map snd kps) /\ In q (map snd kps) /\ p <> q.
Proof.
  exists [((1, 0), (0, 0)); ((1, Qc_of_Z 2), (1, 0))], (fun _ _ => Some [0; Qc_of_Z 2; 1; 0]).
  split; [|split].
  - repeat (constructor; [cbn [fst snd]; apply opt_pair_eq; vm_compute; reflexivity|]). constructor.
  - eexists. split; [reflexivity|]. split; [reflexivity|]. intros y _.
    match goal with |- ?a <= _ => assert (Z : a = 0) by qc_compute; rewrite Z end. apply sum_squares_nonneg.
  - exists (0, 0), (1, 0). cbn [map snd In]. split; [tauto|]. split; [tauto|]. discriminate.
Qed.
