(* Model of src/spectrocrunch/align/transform.py: linear mappings of the image plane
   (change-of-frame matrices), how they are set, combined, inverted, and applied to
   coordinates and images.  Numbers are exact (no dtype, no rounding, no nan). *)
From Verif Require Export MatModel.
Local Open Scope Qc_scope.

(* numpy arrays of shape (2,2), (2,3) and (3,3), element by element *)
Record m22 := M22 { b00 : Qc; b01 : Qc; b10 : Qc; b11 : Qc }.
Record m23 := M23 { c00 : Qc; c01 : Qc; c02 : Qc; c10 : Qc; c11 : Qc; c12 : Qc }.
Record m33 := M33 { a00 : Qc; a01 : Qc; a02 : Qc;
                    a10 : Qc; a11 : Qc; a12 : Qc;
                    a20 : Qc; a21 : Qc; a22 : Qc }.

(* np.identity(3) *)
Definition id33 : m33 := M33 1 0 0 0 1 0 0 0 1.
Definition id22 : m22 := M22 1 0 0 1.
(* np.dot of (3,3) arrays *)
Definition mul33 (p q : m33) : m33 :=
  M33 (a00 p * a00 q + a01 p * a10 q + a02 p * a20 q)
      (a00 p * a01 q + a01 p * a11 q + a02 p * a21 q)
      (a00 p * a02 q + a01 p * a12 q + a02 p * a22 q)
      (a10 p * a00 q + a11 p * a10 q + a12 p * a20 q)
      (a10 p * a01 q + a11 p * a11 q + a12 p * a21 q)
      (a10 p * a02 q + a11 p * a12 q + a12 p * a22 q)
      (a20 p * a00 q + a21 p * a10 q + a22 p * a20 q)
      (a20 p * a01 q + a21 p * a11 q + a22 p * a21 q)
      (a20 p * a02 q + a21 p * a12 q + a22 p * a22 q).
Definition det33 (p : m33) : Qc :=
  a00 p * (a11 p * a22 p - a12 p * a21 p)
  - a01 p * (a10 p * a22 p - a12 p * a20 p)
  + a02 p * (a10 p * a21 p - a11 p * a20 p).
(* np.linalg.inv of a (3,3) array: LinAlgError when it is singular *)
Definition inv33 (p : m33) : result m33 :=
  let d := det33 p in
  if Qc_eqb d 0 then Err LinAlgError
  else Ok (M33 ((a11 p * a22 p - a12 p * a21 p) / d)
               ((a02 p * a21 p - a01 p * a22 p) / d)
               ((a01 p * a12 p - a02 p * a11 p) / d)
               ((a12 p * a20 p - a10 p * a22 p) / d)
               ((a00 p * a22 p - a02 p * a20 p) / d)
               ((a02 p * a10 p - a00 p * a12 p) / d)
               ((a10 p * a21 p - a11 p * a20 p) / d)
               ((a01 p * a20 p - a00 p * a21 p) / d)
               ((a00 p * a11 p - a01 p * a10 p) / d)).
(* np.dot of a (3,3) array with a vector: the vector must have three elements *)
Definition mulv33 (p : m33) (v : list Qc) : result (list Qc) :=
  match v with
  | [x; y; w] => Ok [a00 p * x + a01 p * y + a02 p * w;
                     a10 p * x + a11 p * y + a12 p * w;
                     a20 p * x + a21 p * y + a22 p * w]
  | _ => Err ValueError
  end.

(* align/types.py:6-8 transformationType, without translation *)
Inductive mkind := Rigid | Similarity | Affine | Projective.
(* align/transform.py:20-50 LinearMapping: a translation keeps a (2,) array, the other
   kinds a (3,3) array.  The dtype, cval and interpolation arguments are not kept. *)
Inductive mapping :=
| Trn (x y : Qc)
| Lin (k : mkind) (m : m33).

(* align/transform.py:282-292 setidentity, getidentity *)
Definition setidentity (s : mapping) : mapping :=
  match s with Trn _ _ => Trn 0 0 | Lin k _ => Lin k id33 end.
(* np.array_equal *)
Definition eqb22 (p q : m22) : bool :=
  Qc_eqb (b00 p) (b00 q) && Qc_eqb (b01 p) (b01 q) && Qc_eqb (b10 p) (b10 q) && Qc_eqb (b11 p) (b11 q).
Definition eqb33 (p q : m33) : bool :=
  Qc_eqb (a00 p) (a00 q) && Qc_eqb (a01 p) (a01 q) && Qc_eqb (a02 p) (a02 q)
  && Qc_eqb (a10 p) (a10 q) && Qc_eqb (a11 p) (a11 q) && Qc_eqb (a12 p) (a12 q)
  && Qc_eqb (a20 p) (a20 q) && Qc_eqb (a21 p) (a21 q) && Qc_eqb (a22 p) (a22 q).
(* cof[0:2, 0:2] *)
Definition lin22 (m : m33) : m22 := M22 (a00 m) (a01 m) (a10 m) (a11 m).
(* align/transform.py:294-298 isidentity *)
Definition isidentity (s : mapping) : bool :=
  match s with
  | Trn x y => Qc_eqb x 0 && Qc_eqb y 0
  | Lin _ m => eqb33 m id33
  end.
(* align/transform.py:300-304 islinearidentity *)
Definition islinearidentity (s : mapping) : bool :=
  match s with Trn _ _ => true | Lin _ m => eqb22 (lin22 m) id22 end.
(* align/transform.py:306-310 isprojidentity *)
Definition isprojidentity (s : mapping) : bool :=
  match s with Trn _ _ => true | Lin _ m => Qc_eqb (a20 m) 0 && Qc_eqb (a21 m) 0 end.

(* align/transform.py:116-135 settranslation: either two numbers (or a sequence of two)
   or one number, which numpy gives to both elements *)
Inductive trnarg := TrnXY (x y : Qc) | TrnNumber (x : Qc).
Definition trn_values (t : trnarg) : Qc * Qc :=
  match t with TrnXY x y => (x, y) | TrnNumber x => (x, x) end.
(* cof[0:2, 2] = trn *)
Definition set_col2 (m : m33) (t : Qc * Qc) : m33 :=
  M33 (a00 m) (a01 m) (fst t) (a10 m) (a11 m) (snd t) (a20 m) (a21 m) (a22 m).
(* cof[0:2, 0:2] = M *)
Definition set_lin (m : m33) (M : m22) : m33 :=
  M33 (b00 M) (b01 M) (a02 m) (b10 M) (b11 M) (a12 m) (a20 m) (a21 m) (a22 m).
(* cof[0:2, :] = M *)
Definition set_aff (m : m33) (M : m23) : m33 :=
  M33 (c00 M) (c01 M) (c02 M) (c10 M) (c11 M) (c12 M) (a20 m) (a21 m) (a22 m).
Definition settranslation (s : mapping) (t : trnarg) : mapping :=
  match s with
  | Trn _ _ => let (x, y) := trn_values t in Trn x y
  | Lin k m => Lin k (set_col2 m (trn_values t))
  end.
(* align/transform.py:137-149 gettranslation *)
Definition gettranslation (s : mapping) : Qc * Qc :=
  match s with Trn x y => (x, y) | Lin _ m => (a02 m, a12 m) end.

(* align/transform.py:151-170 setrigid.  costheta and sintheta are np.cos(theta) and
   np.sin(theta).  The result is the object afterwards and the exception raised, if any:
   for a translation the kind is compared instead of assigned, the array stays (2,) and
   indexing it with [0:2, :] fails. *)
Definition setrigid (s : mapping) (costheta sintheta tx ty : Qc) : mapping * option exn :=
  let M := M23 costheta (- sintheta) tx sintheta costheta ty in
  match s with
  | Trn _ _ => (Trn 0 0, Some IndexError)
  | Lin k m =>
      let k' := match k with Similarity | Affine => Rigid | _ => k end in
      (Lin k' (set_aff m M), None)
  end.
(* align/transform.py:172-180 getrigid; acos is np.arccos *)
Definition getrigid (acos : Qc -> Qc) (s : mapping) : result (Qc * Qc * Qc) :=
  match s with
  | Trn x y => Ok (0, x, y)
  | Lin Rigid m => Ok (acos (a00 m), a02 m, a12 m)
  | Lin _ _ => Err ValueError
  end.
(* the first branch of setlinear, setaffine and setprojective: a translation becomes a
   matrix with the same translation *)
Definition promote (k : mkind) (s : mapping) : mapping :=
  match s with Trn x y => settranslation (Lin k id33) (TrnXY x y) | Lin _ _ => s end.
(* align/transform.py:182-198 setlinear *)
Definition setlinear (s : mapping) (M : m22) : mapping :=
  match promote Affine s with Lin k m => Lin k (set_lin m M) | Trn x y => Trn x y end.
(* align/transform.py:200-212 getlinear *)
Definition getlinear (s : mapping) : m22 := match s with Trn _ _ => id22 | Lin _ m => lin22 m end.
(* align/transform.py:214-230 setaffine *)
Definition setaffine (s : mapping) (M : m23) : mapping :=
  match promote Affine s with Lin k m => Lin k (set_aff m M) | Trn x y => Trn x y end.
(* align/transform.py:232-246 getaffine, as the list of rows of the array: the matrix kinds
   return cof[:, 0:2], three rows of two *)
Definition getaffine (s : mapping) : list (list Qc) :=
  match s with
  | Trn x y => [[1; 0; x]; [0; 1; y]]
  | Lin _ m => [[a00 m; a01 m]; [a10 m; a11 m]; [a20 m; a21 m]]
  end.
(* align/transform.py:248-264 setprojective: the kind of a rigid, similarity or affine
   mapping is compared instead of assigned *)
Definition setprojective (s : mapping) (M : m33) : mapping :=
  match promote Projective s with Lin k m => Lin k M | Trn x y => Trn x y end.
(* align/transform.py:266-280 getprojective and 108-114 getnumpyhomography *)
Definition homography (s : mapping) : m33 :=
  match s with Trn x y => M33 1 0 x 0 1 y 0 0 1 | Lin _ m => m end.
Definition getprojective (s : mapping) : m33 := homography s.

(* align/transform.py:312-359 _combine.  Its own branches decide the kind. *)
Definition kind_is (k : mkind) (s : mapping) : bool :=
  match s, k with
  | Lin Rigid _, Rigid | Lin Similarity _, Similarity | Lin Affine _, Affine | Lin Projective _, Projective => true
  | _, _ => false
  end.
Definition combine_kind (s C : mapping) : mkind :=
  if kind_is Projective s || kind_is Projective C then Projective
  else if kind_is Affine s || kind_is Affine C then Affine
  else if kind_is Similarity s || kind_is Similarity C then Similarity
  else Rigid.
(* C1[0:2, 2] = self.cof in an identity, or self.cof *)
Definition as_matrix (s : mapping) : m33 :=
  match s with Trn x y => set_col2 id33 (x, y) | Lin _ m => m end.
Definition combine (s C : mapping) (right : bool) : mapping :=
  match s, C with
  | Trn x y, Trn x' y' => Trn (x + x') (y + y')
  | _, _ =>
      let C1 := as_matrix s in
      let C2 := as_matrix C in
      Lin (combine_kind s C) (if right then mul33 C1 C2 else mul33 C2 C1)
  end.
(* align/transform.py:361-388 _dot, _dotinplace, after, before and the in-place versions
   (same value: the in-place versions replace the array when its size changes) *)
Definition after (s C : mapping) : mapping := combine s C false.
Definition before (s C : mapping) : mapping := combine s C true.
(* align/transform.py:397-409 inverse, inverse_inplace *)
Definition inverse (s : mapping) : result mapping :=
  match s with
  | Trn x y => Ok (Trn (- x) (- y))
  | Lin k m => let! i := inv33 m in Ok (Lin k i)
  end.
(* align/transform.py:390-391 new_frame *)
Definition new_frame (s C : mapping) : result mapping :=
  let! i := inverse C in Ok (before (before i s) C).
(* align/transform.py:393-395 new_frame_inplace *)
Definition new_frame_inplace (s C : mapping) : result mapping :=
  let! i := inverse C in
  let s := after s i in
  Ok (before s C).

(* align/transform.py:423-441 _transformcoordinates for one point (a vector of 2 or 3);
   an array of points is treated column by column *)
Definition translate_coordinates (x y : Qc) (xy : list Qc) : result (list Qc) :=
  match xy with
  | [px; py] => Ok [px + x; py + y]
  | [px; py; pw] => Ok [px + x; py + y; pw]
  | _ => Err ValueError
  end.
(* align/transform.py:419-421 transformcoordinatesinverse: Aold = C.Anew *)
Definition transformcoordinatesinverse (s : mapping) (xy : list Qc) : result (list Qc) :=
  match s with
  | Trn x y => translate_coordinates x y xy
  | Lin _ m => mulv33 m xy
  end.
(* align/transform.py:411-417 transformcoordinates: Anew = C^-1.Aold *)
Definition transformcoordinates (s : mapping) (xy : list Qc) : result (list Qc) :=
  match s with
  | Trn x y => translate_coordinates (- x) (- y) xy
  | Lin _ m => let! i := inv33 m in mulv33 i xy
  end.

(* align/transform.py:443-447 fromtransform: a (2,) array cannot be assigned into a (3,3)
   array nor the other way round.  The half-changed object left by the error is not modelled. *)
Definition fromtransform (s t : mapping) : result mapping :=
  match s, t with
  | Trn _ _, Trn x y => Ok (Trn x y)
  | Lin _ _, Lin k m => Ok (Lin k m)
  | _, _ => Err ValueError
  end.

(* align/transform.py:62-88 transformimage.  An image is the function that gives its
   (interpolated) value at any row and column; scipy.ndimage.shift(img, s) has at (r, c) the
   value of img at (r - s0, c - s1), and affine_transform(img, M, offset=o) the value of img
   at M.(r, c) + o.  Interpolation and the border are not modelled. *)
Section Image.
Context {V : Type}.
Definition image := Qc -> Qc -> V.
Definition nd_shift (img : image) (s0 s1 : Qc) : image := fun r c => img (r - s0) (c - s1).
Definition nd_affine (img : image) (M : m22) (o0 o1 : Qc) : image :=
  fun r c => img (b00 M * r + b01 M * c + o0) (b10 M * r + b11 M * c + o1).
Definition transpose22 (M : m22) : m22 := M22 (b00 M) (b10 M) (b01 M) (b11 M).
Definition transformimage (s : mapping) (img : image) : result image :=
  if isidentity s then Ok img
  else match s with
  | Trn x y => Ok (nd_shift img (- y) (- x))
  | Lin _ m =>
      if islinearidentity s then Ok (nd_shift img (- a12 m) (- a02 m))
      else if isprojidentity s then Ok (nd_affine img (transpose22 (lin22 m)) (a12 m) (a02 m))
      else Err NotImplementedError
  end.
End Image.
Arguments image : clear implicits.

(* align/transform.py:480-483 centroid: scipy.stats.trim_mean(x, 0.1), the mean without the
   int(0.1 n) smallest and the int(0.1 n) largest values.  For no values the mean is nan (None). *)
Fixpoint insert_sorted (a : Qc) (l : list Qc) : list Qc :=
  match l with [] => [a] | b :: l' => if Qc_leb a b then a :: l else b :: insert_sorted a l' end.
Definition sort_values (l : list Qc) : list Qc := fold_right insert_sorted [] l.
Definition mean (l : list Qc) : option Qc :=
  match l with [] => None | _ => Some (fold_right Qcplus 0 l / Qc_of_Z (Z.of_nat (length l))) end.
Definition centroid (l : list Qc) : option Qc :=
  let n := length l in
  let cut := (n / 10)%nat in
  mean (firstn (n - cut - cut) (skipn cut (sort_values l))).
(* a - b for arrays of the same length *)
Definition minus_list (p q : list Qc) : result (list Qc) :=
  if (length p =? length q)%nat then Ok (map (fun z => fst z - snd z) (List.combine p q)) else Err ValueError.

(* align/transform.py:485-488 translation_fromkeypoints.  When there are no key points the
   translation is nan: None. *)
Definition translation_fromkeypoints (s : mapping) (xsrc ysrc xdest ydest : list Qc) : result (option mapping) :=
  let s := setidentity s in
  let! dx := minus_list xsrc xdest in
  let! dy := minus_list ysrc ydest in
  Ok match centroid dx, centroid dy with
     | Some tx, Some ty => Some (settranslation s (TrnXY tx ty))
     | _, _ => None
     end.

(* A key point in the source and in the destination image: ((xsrc, ysrc), (xdest, ydest)).
   The rows of the linear systems, two for each key point. *)
Definition keypoint : Type := (Qc * Qc) * (Qc * Qc).
(* align/transform.py:519-562 similarity_fromkeypoints *)
Definition similarity_rows (kp : keypoint) : list (list Qc * Qc) :=
  let '((x', y'), (x, y)) := kp in
  [([x; - y; 1; 0], x'); ([y; x; 0; 1], y')].
Definition affine_rows (kp : keypoint) : list (list Qc * Qc) :=
  let '((x', y'), (x, y)) := kp in
  [([x; y; 1; 0; 0; 0], x'); ([0; 0; 0; x; y; 1], y')].
Section KeyPoints.
(* align/transform.py:449-453 _solvelinearsystem, math/fit1d.py lstsq: the solution found by
   np.linalg.lstsq, or None *)
Variable lstsq : list (list Qc) -> list Qc -> option (list Qc).
Definition solvelinearsystem (rows : list (list Qc * Qc)) : option (list Qc) :=
  lstsq (map fst rows) (map snd rows).
Definition similarity_fromkeypoints (s : mapping) (kps : list keypoint) : mapping :=
  let s := setidentity s in
  match solvelinearsystem (flat_map similarity_rows kps) with
  | Some [a; b; t0; t1] => settranslation (setlinear s (M22 a (- b) b a)) (TrnXY t0 t1)
  | _ => s
  end.
(* align/transform.py:564-608 affine_fromkeypoints *)
Definition affine_fromkeypoints (s : mapping) (kps : list keypoint) : mapping :=
  let s := setidentity s in
  match solvelinearsystem (flat_map affine_rows kps) with
  | Some [a; b; t0; c; d; t1] => setaffine s (M23 a b t0 c d t1)
  | _ => s
  end.
(* align/transform.py:490-517 rigid_fromkeypoints; svd gives U and V of
   np.linalg.svd(S) with S = U.diag(s).V (two by two) *)
Variable svd : m22 -> m22 * m22.
Definition mul22 (p q : m22) : m22 :=
  M22 (b00 p * b00 q + b01 p * b10 q) (b00 p * b01 q + b01 p * b11 q)
      (b10 p * b00 q + b11 p * b10 q) (b10 p * b01 q + b11 p * b11 q).
Definition sum_of (f : keypoint -> Qc) (kps : list keypoint) : Qc := fold_right Qcplus 0 (map f kps).
Definition xsrc_of (kp : keypoint) : Qc := fst (fst kp).
Definition ysrc_of (kp : keypoint) : Qc := snd (fst kp).
Definition xdest_of (kp : keypoint) : Qc := fst (snd kp).
Definition ydest_of (kp : keypoint) : Qc := snd (snd kp).
Definition rigid_fromkeypoints (s : mapping) (kps : list keypoint) : option mapping :=
  let s := setidentity s in
  match centroid (map xdest_of kps), centroid (map ydest_of kps),
        centroid (map xsrc_of kps), centroid (map ysrc_of kps) with
  | Some cx, Some cy, Some cx', Some cy' =>
      let S := M22 (sum_of (fun k => (xdest_of k - cx) * (xsrc_of k - cx')) kps)
                   (sum_of (fun k => (xdest_of k - cx) * (ysrc_of k - cy')) kps)
                   (sum_of (fun k => (ydest_of k - cy) * (xsrc_of k - cx')) kps)
                   (sum_of (fun k => (ydest_of k - cy) * (ysrc_of k - cy')) kps) in
      let (U, V) := svd S in
      let C := mul22 V (transpose22 U) in
      let s := setlinear s C in
      match centroid (map (fun k => xsrc_of k - (b00 C * xdest_of k + b01 C * ydest_of k)) kps),
            centroid (map (fun k => ysrc_of k - (b10 C * xdest_of k + b11 C * ydest_of k)) kps) with
      | Some tx, Some ty => Some (settranslation s (TrnXY tx ty))
      | _, _ => None
      end
  | _, _, _, _ => None
  end.
(* align/transform.py:666-686 fromkeypoints: None is a mapping with nan *)
Definition fromkeypoints (s : mapping) (kps : list keypoint) : result (option mapping) :=
  match s with
  | Trn _ _ => translation_fromkeypoints s (map xsrc_of kps) (map ysrc_of kps) (map xdest_of kps) (map ydest_of kps)
  | Lin Rigid _ => Ok (rigid_fromkeypoints s kps)
  | Lin Similarity _ => Ok (Some (similarity_fromkeypoints s kps))
  | Lin Affine _ => Ok (Some (affine_fromkeypoints s kps))
  | Lin Projective _ => Err NotImplementedError
  end.
End KeyPoints.
