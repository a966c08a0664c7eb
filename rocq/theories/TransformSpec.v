(* Vocabulary for transformations of the image plane: what a mapping does to a point. *)
From Verif Require Export TransformModel.
Local Open Scope Qc_scope.

(* The point of the plane with homogeneous coordinates (X, Y, W) *)
Definition dehom (v : list Qc) : option (Qc * Qc) :=
  match v with
  | [X; Y; W] => if Qc_eqb W 0 then None else Some (X / W, Y / W)
  | _ => None
  end.

(* Xold = C.Xnew: the point (x, y) of the new frame, in the old frame.  None is a point at
   infinity. *)
Definition old_point (s : mapping) (p : Qc * Qc) : option (Qc * Qc) :=
  let (x, y) := p in
  match s with
  | Trn tx ty => Some (x + tx, y + ty)
  | Lin _ m =>
      let W := a20 m * x + a21 m * y + a22 m in
      if Qc_eqb W 0 then None
      else Some ((a00 m * x + a01 m * y + a02 m) / W, (a10 m * x + a11 m * y + a12 m) / W)
  end.
Definition obind {A B} (o : option A) (f : A -> option B) : option B :=
  match o with Some a => f a | None => None end.

Definition invertible (s : mapping) : Prop :=
  match s with Trn _ _ => True | Lin _ m => det33 m <> 0 end.

(* The mapping is of the form its kind stands for (align/types.py:13-31) *)
Definition is_affine (m : m33) : Prop := a20 m = 0 /\ a21 m = 0 /\ a22 m = 1.
Definition is_similarity (m : m33) : Prop := a11 m = a00 m /\ a10 m = - a01 m.
Definition is_rigid (m : m33) : Prop := a00 m * a00 m + a01 m * a01 m = 1.
Definition fits (k : mkind) (m : m33) : Prop :=
  match k with
  | Projective => True
  | Affine => is_affine m
  | Similarity => is_affine m /\ is_similarity m
  | Rigid => is_affine m /\ is_similarity m /\ is_rigid m
  end.
Definition well_kinded (s : mapping) : Prop := match s with Trn _ _ => True | Lin k m => fits k m end.
(* None for a translation *)
Definition kind_of (s : mapping) : option mkind := match s with Trn _ _ => None | Lin k _ => Some k end.
Definition not_projective (s : mapping) : Prop := match s with Lin Projective _ => False | _ => True end.

(* translation written as a matrix of some kind *)
Definition written_as_matrix (k : mkind) (s : mapping) : mapping :=
  match s with Trn x y => Lin k (M33 1 0 x 0 1 y 0 0 1) | Lin _ _ => s end.

(* rows of the arrays given to the setters *)
Definition rows23 (M : m23) : list (list Qc) := [[c00 M; c01 M; c02 M]; [c10 M; c11 M; c12 M]].
Definition linear_of (s : mapping) : m22 := lin22 (homography s).
Definition translation_of (s : mapping) : Qc * Qc := (a02 (homography s), a12 (homography s)).
Definition last_row_of (s : mapping) : Qc * Qc * Qc :=
  (a20 (homography s), a21 (homography s), a22 (homography s)).

(* Key points: the sum of squares that a least-squares solution makes as small as possible *)
Fixpoint dotp (u v : list Qc) : Qc :=
  match u, v with a :: u', b :: v' => a * b + dotp u' v' | _, _ => 0 end.
Definition sum_squares (A : list (list Qc)) (b : list Qc) (x : list Qc) : Qc :=
  fold_right Qcplus 0 (map (fun p => (dotp (fst p) x - snd p) * (dotp (fst p) x - snd p)) (List.combine A b)).
Definition least_squares_solution (n : nat) (A : list (list Qc)) (b : list Qc) (x : list Qc) : Prop :=
  length x = n /\ forall y, length y = n -> sum_squares A b x <= sum_squares A b y.
(* The solver answers this system with a least-squares solution *)
Definition solves (lstsq : list (list Qc) -> list Qc -> option (list Qc)) (n : nat) (rows : list (list Qc * Qc)) : Prop :=
  exists x, lstsq (map fst rows) (map snd rows) = Some x /\ least_squares_solution n (map fst rows) (map snd rows) x.
(* every key point of the destination image comes from its source by C *)
Definition exact_keypoints (C : mapping) (kps : list keypoint) : Prop :=
  Forall (fun kp : keypoint => old_point C (snd kp) = Some (fst kp)) kps.
(* twice the signed area of a triangle *)
Definition area2 (p q r : Qc * Qc) : Qc :=
  (fst q - fst p) * (snd r - snd p) - (fst r - fst p) * (snd q - snd p).

(* A singular value decomposition of a two by two matrix: S = U.diag(d).V with U and V
   orthogonal and positive d *)
Definition orthogonal (M : m22) : Prop :=
  mul22 M (transpose22 M) = id22 /\ mul22 (transpose22 M) M = id22.
Definition svd_of (S U V : m22) (d1 d2 : Qc) : Prop :=
  orthogonal U /\ orthogonal V /\ 0 < d1 /\ 0 < d2 /\ S = mul22 (mul22 U (M22 d1 0 0 d2)) V.

Definition rotation (c s : Qc) : m22 := M22 c (- s) s c.
Definition rigid_matrix (c s tx ty : Qc) : m33 := M33 c (- s) tx s c ty 0 0 1.
(* the mean of a coordinate of the key points *)
Definition meanof (f : keypoint -> Qc) (kps : list keypoint) : Qc :=
  fold_right Qcplus 0 (map f kps) / Qc_of_Z (Z.of_nat (length kps)).
(* the matrix given to the singular value decomposition *)
Definition covariance (kps : list keypoint) (cx cy cx' cy' : Qc) : m22 :=
  M22 (sum_of (fun k => (xdest_of k - cx) * (xsrc_of k - cx')) kps)
      (sum_of (fun k => (xdest_of k - cx) * (ysrc_of k - cy')) kps)
      (sum_of (fun k => (ydest_of k - cy) * (xsrc_of k - cx')) kps)
      (sum_of (fun k => (ydest_of k - cy) * (ysrc_of k - cy')) kps).
Definition keypoint_covariance (kps : list keypoint) : m22 :=
  covariance kps (meanof xdest_of kps) (meanof ydest_of kps) (meanof xsrc_of kps) (meanof ysrc_of kps).

(* the kinds that have no relation between the elements of the linear part *)
Definition freeform (s : mapping) : Prop :=
  match s with Lin Rigid _ | Lin Similarity _ => False | _ => True end.

(* Witnesses: a perspective, a stretching along x only, and a perspective that keeps the
   linear part *)
Definition ex_perspective : mapping := Lin Projective (M33 1 0 0 0 1 0 1 0 1).
Definition ex_stretch : mapping := Lin Affine (M33 (Qc_of_Z 2) 0 0 0 1 0 0 0 1).
Definition ex_affine : m33 := M33 (Qc_of_Z 2) 1 (Qc_of_Z 3) 0 1 (Qc_of_Z 4) 0 0 1.
Definition q35 : Qc := Q2Qc (3 # 5).
Definition q45 : Qc := Q2Qc (4 # 5).
(* four points and the same points turned and shifted *)
Definition ex_turned (x y : Qc) : keypoint := ((q35 * x - q45 * y + 1, q45 * x + q35 * y + Qc_of_Z 2), (x, y)).
Definition ex_keypoints : list keypoint :=
  [ex_turned (Qc_of_Z 2) 0; ex_turned (Qc_of_Z (-2)) 0; ex_turned 0 1; ex_turned 0 (Qc_of_Z (-1))].
(* two singular value decompositions of their matrix *)
Definition ex_svd_rotation (S : m22) : m22 * m22 := (M22 1 0 0 1, M22 q35 q45 (- q45) q35).
Definition ex_svd_reflection (S : m22) : m22 * m22 := (M22 1 0 0 (- (1)), M22 q35 q45 q45 (- q35)).
(* nine good key points and a bad one *)
Definition ex_good (k : Z) : keypoint := ((Qc_of_Z k + 1, Qc_of_Z 2), (Qc_of_Z k, 0)).
Definition ex_goods : list keypoint := map ex_good [1; 2; 3; 4; 5; 6; 7; 8; 9]%Z.
Definition ex_bad : keypoint := ((Qc_of_Z 100, 0), (0, 0)).
