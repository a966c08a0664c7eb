From Verif Require Import BaseProofs MatProofs TransformProofs TransformSpec.
Local Open Scope Qc_scope.

(** ** Setting parts *)
Theorem settranslation_ok s x y :
  let s' := settranslation s (TrnXY x y) in
  gettranslation s' = (x, y) /\ translation_of s' = (x, y) /\ linear_of s' = linear_of s /\ last_row_of s' = last_row_of s /\
  (well_kinded s -> well_kinded s').
Proof.
  destruct s as [tx ty|k m]; cbv zeta; cbn [settranslation trn_values].
  - exact (conj eq_refl (conj eq_refl (conj eq_refl (conj eq_refl (fun H => H))))).
  - split; [reflexivity|]. split; [reflexivity|]. split; [reflexivity|]. split; [reflexivity|].
    intros H. destruct k; exact H.
Qed.

Lemma settranslation_number s x : settranslation s (TrnNumber x) = settranslation s (TrnXY x x).
Proof. destruct s; reflexivity. Qed.

Theorem setlinear_ok s M :
  let s' := setlinear s M in
  getlinear s' = M /\ linear_of s' = M /\ translation_of s' = translation_of s /\ last_row_of s' = last_row_of s /\
  (well_kinded s -> freeform s -> well_kinded s').
Proof.
  destruct s as [tx ty|k m]; cbv zeta; destruct M as [m0 m1 m2 m3].
  - split; [reflexivity|]. split; [reflexivity|]. split; [reflexivity|]. split; [reflexivity|].
    intros _ _. split; [reflexivity|]. split; reflexivity.
  - split; [reflexivity|]. split; [reflexivity|]. split; [reflexivity|]. split; [reflexivity|].
    intros H F. destruct k; cbn in F; try tauto; exact H.
Qed.

Theorem setaffine_ok s M :
  let s' := setaffine s M in
  linear_of s' = M22 (c00 M) (c01 M) (c10 M) (c11 M) /\ translation_of s' = (c02 M, c12 M) /\
  last_row_of s' = last_row_of s /\ (well_kinded s -> freeform s -> well_kinded s').
Proof.
  destruct s as [tx ty|k m]; cbv zeta; destruct M as [m0 m1 m2 m3 m4 m5].
  - split; [reflexivity|]. split; [reflexivity|]. split; [reflexivity|].
    intros _ _. split; [reflexivity|]. split; reflexivity.
  - split; [reflexivity|]. split; [reflexivity|]. split; [reflexivity|].
    intros H F. destruct k; cbn in F; try tauto; exact H.
Qed.

Theorem getaffine_trn x y : getaffine (Trn x y) = rows23 (M23 1 0 x 0 1 y).
Proof. reflexivity. Qed.

Theorem setaffine_getaffine s M : getaffine (setaffine s M) <> rows23 M.
Proof.
  intros H. apply (f_equal (@length (list Qc))) in H.
  destruct s as [tx ty|k m]; cbn in H; discriminate H.
Qed.

Theorem setprojective_ok s M :
  getprojective (setprojective s M) = M /\
  (match s with Trn _ _ | Lin Projective _ => True | _ => False end -> well_kinded (setprojective s M)).
Proof. destruct s as [tx ty|[] m]; split; try reflexivity; intros H; try contradiction; exact I. Qed.

Theorem setprojective_kind k m M : setprojective (Lin k m) M = Lin k M.
Proof. reflexivity. Qed.

Theorem setrigid_trn x y c sn tx ty : setrigid (Trn x y) c sn tx ty = (Trn 0 0, Some IndexError).
Proof. reflexivity. Qed.

Theorem setrigid_lin k m c sn tx ty :
  exists k' m', setrigid (Lin k m) c sn tx ty = (Lin k' m', None) /\
    lin22 m' = M22 c (- sn) sn c /\ (a02 m', a12 m') = (tx, ty) /\
    (a20 m', a21 m', a22 m') = (a20 m, a21 m, a22 m) /\
    (k <> Projective -> k' = Rigid) /\ (k = Projective -> k' = Projective) /\
    (well_kinded (Lin k m) -> c * c + sn * sn = 1 -> well_kinded (Lin k' m')).
Proof.
  eexists _, _. split; [reflexivity|]. split; [reflexivity|]. split; [reflexivity|]. split; [reflexivity|].
  split; [destruct k; intros H; try reflexivity; contradiction|].
  split; [destruct k; intros H; try discriminate H; reflexivity|].
  cbn [well_kinded]. intros K E.
  assert (R : is_rigid (set_aff m (M23 c (- sn) tx sn c ty))).
  { unfold is_rigid, set_aff. cbn [a00 a01 c00 c01]. rewrite <- E. ring. }
  assert (S : is_similarity (set_aff m (M23 c (- sn) tx sn c ty))).
  { unfold is_similarity, set_aff. cbn [a00 a01 a10 a11 c00 c01 c10 c11]. split; [reflexivity|ring]. }
  destruct k; cbn [fits] in *; try exact I.
  - exact (conj (proj1 K) (conj S R)).
  - exact (conj (proj1 K) (conj S R)).
  - exact (conj K (conj S R)).
Qed.

Theorem getrigid_projective acos m : getrigid acos (Lin Projective m) = Err ValueError.
Proof. reflexivity. Qed.

Theorem setrigid_getrigid acos k m c sn tx ty : k <> Projective ->
  getrigid acos (fst (setrigid (Lin k m) c sn tx ty)) = Ok (acos c, tx, ty).
Proof. destruct k; intros H; try reflexivity; contradiction. Qed.

Theorem angle_sign acos k m c sn tx ty :
  getrigid acos (fst (setrigid (Lin k m) c sn tx ty)) = getrigid acos (fst (setrigid (Lin k m) c (- sn) tx ty)).
Proof. destruct k; reflexivity. Qed.

Lemma eqb33_spec p q : eqb33 p q = true <-> p = q.
Proof.
  unfold eqb33. rewrite !andb_true_iff, !Qc_eqb_spec. split.
  - intros ((((((((H0 & H1) & H2) & H3) & H4) & H5) & H6) & H7) & H8). apply m33_eq; assumption.
  - intros ->. tauto.
Qed.
Lemma eqb22_spec p q : eqb22 p q = true <-> p = q.
Proof.
  unfold eqb22. rewrite !andb_true_iff, !Qc_eqb_spec. destruct p, q; cbn. split.
  - intros (((H0 & H1) & H2) & H3). congruence.
  - intros H. injection H. intros; subst; auto.
Qed.

Theorem isidentity_spec s : isidentity s = true <-> homography s = id33.
Proof.
  destruct s as [x y|k m]; cbn [isidentity homography].
  - rewrite andb_true_iff, !Qc_eqb_spec. split; [intros [-> ->]; reflexivity|].
    intros H. split; [exact (f_equal a02 H)|exact (f_equal a12 H)].
  - apply eqb33_spec.
Qed.

Theorem setidentity_ok s : isidentity (setidentity s) = true /\ (forall p, old_point (setidentity s) p = Some p).
Proof.
  assert (H : homography (setidentity s) = id33) by (destruct s; reflexivity).
  split; [apply isidentity_spec; exact H|exact (old_point_id _ H)].
Qed.

(* a mapping that moves no point is recognised as the identity, unless it is projective *)
Theorem isidentity_points s : well_kinded s -> not_projective s ->
  ((forall p, old_point s p = Some p) <-> isidentity s = true).
Proof.
  intros K N. split.
  - intros H. apply isidentity_spec.
    assert (L : a20 (homography s) = 0 /\ a21 (homography s) = 0 /\ a22 (homography s) = 1).
    { destruct s as [x y|k m]; [split; [reflexivity|split; reflexivity]|].
      destruct k; cbn in K, N; try tauto; exact (proj1 K) || exact K. }
    destruct L as (L0 & L1 & L2).
    assert (P : forall x y, a00 (homography s) * x + a01 (homography s) * y + a02 (homography s) = x /\
                            a10 (homography s) * x + a11 (homography s) * y + a12 (homography s) = y).
    { intros x y. specialize (H (x, y)). rewrite old_point_homography in H. cbn [dehom] in H.
      rewrite L0, L1, L2 in H. assert (E : 0 * x + 0 * y + 1 = 1) by ring. rewrite E in H.
      replace (Qc_eqb 1 0) with false in H by reflexivity. injection H as H1 H2.
      split; [rewrite <- H1 at 2|rewrite <- H2 at 2]; field; discriminate. }
    set (h := homography s) in *. clearbody h. destruct (P 0 0) as [P0 P1]. destruct (P 1 0) as [P2 P3]. destruct (P 0 1) as [P4 P5].
    apply m33_eq; cbn [id33 a00 a01 a02 a10 a11 a12 a20 a21 a22]; try assumption; qclra.
  - intros H. apply old_point_id, isidentity_spec, H.
Qed.

(** ** Images *)
Lemma transformimage_lin {V} k m (img : image V) : is_affine m -> a00 m = a11 m ->
  exists img', transformimage (Lin k m) img = Ok img' /\
    forall r c, img' r c = img (a10 m * c + a11 m * r + a12 m) (a00 m * c + a01 m * r + a02 m).
Proof.
  intros (L0 & L1 & L2) E. unfold transformimage.
  destruct (isidentity (Lin k m)) eqn:I.
  - apply isidentity_spec in I. cbn [homography] in I. subst m. eexists; split; [reflexivity|].
    intros r c. f_equal; cbn [id33 a00 a01 a02 a10 a11 a12]; ring.
  - destruct (islinearidentity (Lin k m)) eqn:J.
    + cbn [islinearidentity] in J. apply eqb22_spec in J. injection J as J0 J1 J2 J3.
      eexists; split; [reflexivity|]. intros r c. unfold nd_shift. rewrite J0, J1, J2, J3. f_equal; ring.
    + assert (P : isprojidentity (Lin k m) = true) by (cbn [isprojidentity]; rewrite L0, L1; reflexivity).
      rewrite P. eexists; split; [reflexivity|]. intros r c. unfold nd_affine, transpose22, lin22.
      cbn [b00 b01 b10 b11]. rewrite E. f_equal; ring.
Qed.

Theorem image_sampled {V} s (img : image V) : well_kinded s ->
  match s with Trn _ _ | Lin Rigid _ | Lin Similarity _ => True | Lin Affine m => a00 m = a11 m | Lin Projective _ => False end ->
  exists img', transformimage s img = Ok img' /\
    forall r c, exists x y, old_point s (c, r) = Some (x, y) /\ img' r c = img y x.
Proof.
  intros K F. destruct s as [tx ty|k m].
  - unfold transformimage. destruct (isidentity (Trn tx ty)) eqn:I.
    + eexists; split; [reflexivity|]. intros r c. exists c, r. split; [|reflexivity].
      apply isidentity_spec in I. exact (old_point_id _ I (c, r)).
    + eexists; split; [reflexivity|]. intros r c. eexists _, _. split; [reflexivity|]. unfold nd_shift. f_equal; ring.
  - assert (A : is_affine m) by (destruct k; cbn in K, F; tauto).
    assert (E : a00 m = a11 m).
    { destruct k; cbn [well_kinded fits] in K, F; unfold is_similarity in K; symmetry; tauto || (symmetry; tauto). }
    destruct (transformimage_lin k m img A E) as (img' & T & H). exists img'. split; [exact T|].
    intros r c. destruct A as (A0 & A1 & A2). eexists _, _. split.
    + rewrite old_point_homography. cbn [homography dehom]. rewrite A0, A1, A2.
      assert (W : 0 * c + 0 * r + 1 = 1) by ring. rewrite W. replace (Qc_eqb 1 0) with false by reflexivity. reflexivity.
    + rewrite H. f_equal; field; discriminate.
Qed.

(* for an affine mapping that is not a pure translation, exactly when both scales agree *)
Theorem image_sampled_iff m : is_affine m -> lin22 m <> id22 ->
  ((forall img : image (Qc * Qc), exists img', transformimage (Lin Affine m) img = Ok img' /\
      forall r c, exists x y, old_point (Lin Affine m) (c, r) = Some (x, y) /\ img' r c = img y x)
   <-> a00 m = a11 m).
Proof.
  intros A NI. split.
  - intros H. destruct (H (fun r c => (r, c))) as (img' & T & P).
    unfold transformimage in T.
    assert (J : islinearidentity (Lin Affine m) = false).
    { cbn [islinearidentity]. destruct (eqb22 (lin22 m) id22) eqn:E; [|reflexivity]. apply eqb22_spec in E. contradiction. }
    assert (I : isidentity (Lin Affine m) = false).
    { destruct (isidentity (Lin Affine m)) eqn:E; [|reflexivity]. apply isidentity_spec in E. cbn [homography] in E.
      subst m. exfalso. apply NI. reflexivity. }
    assert (Q : isprojidentity (Lin Affine m) = true).
    { destruct A as (A0 & A1 & _). cbn [isprojidentity]. rewrite A0, A1. reflexivity. }
    rewrite I, J, Q in T. injection T as <-. destruct (P 1 0) as (x & y & E & F).
    unfold nd_affine, transpose22, lin22 in F. cbn [b00 b01 b10 b11] in F. apply (f_equal fst) in F. cbn [fst] in F.
    rewrite old_point_homography in E. cbn [homography dehom] in E. destruct A as (A0 & A1 & A2).
    rewrite A0, A1, A2 in E. assert (W : 0 * 0 + 0 * 1 + 1 = 1) by ring. rewrite W in E.
    replace (Qc_eqb 1 0) with false in E by reflexivity. injection E as _ E.
    assert (G : a10 m * 0 + a11 m * 1 + a12 m = y) by (rewrite <- E; field; discriminate).
    clear - F G. qclra.
  - intros E img. apply image_sampled; [exact A|exact E].
Qed.

Theorem image_projective {V} k m (img : image V) : lin22 m <> id22 -> (a20 m, a21 m) <> (0, 0) ->
  transformimage (Lin k m) img = Err NotImplementedError.
Proof.
  intros N P. unfold transformimage.
  assert (J : islinearidentity (Lin k m) = false).
  { cbn [islinearidentity]. destruct (eqb22 (lin22 m) id22) eqn:E; [|reflexivity]. apply eqb22_spec in E. contradiction. }
  assert (I : isidentity (Lin k m) = false).
  { destruct (isidentity (Lin k m)) eqn:E; [|reflexivity]. apply isidentity_spec in E. cbn [homography] in E.
    subst m. exfalso. apply N. reflexivity. }
  assert (Q : isprojidentity (Lin k m) = false).
  { cbn [isprojidentity]. destruct (Qc_eqb (a20 m) 0 && Qc_eqb (a21 m) 0) eqn:E; [|reflexivity].
    apply andb_true_iff in E. rewrite !Qc_eqb_spec in E. destruct E as [E0 E1]. exfalso. apply P. rewrite E0, E1. reflexivity. }
  rewrite I, J, Q. reflexivity.
Qed.

(** ** Key points *)
Lemma insert_repeat a n : insert_sorted a (repeat a n) = repeat a (S n).
Proof.
  destruct n as [|n]; [reflexivity|]. cbn [repeat insert_sorted].
  assert (E : Qc_leb a a = true) by (apply Qc_leb_le; apply Qcle_refl). rewrite E. reflexivity.
Qed.
Lemma sort_repeat a n : sort_values (repeat a n) = repeat a n.
Proof.
  induction n as [|n IH]; [reflexivity|]. unfold sort_values in *. cbn [repeat fold_right]. rewrite IH. apply insert_repeat.
Qed.
Lemma sum_repeat a n : fold_right Qcplus 0 (repeat a n) = Qc_of_Z (Z.of_nat n) * a.
Proof.
  induction n as [|n IH]; cbn [repeat fold_right].
  - change (Qc_of_Z (Z.of_nat 0)) with 0. ring.
  - rewrite IH, Nat2Z.inj_succ. unfold Z.succ. rewrite Qc_of_Z_plus. change (Qc_of_Z 1) with 1. ring.
Qed.
Lemma firstn_repeat (a : Qc) n k : firstn k (repeat a n) = repeat a (Nat.min k n).
Proof. revert k; induction n as [|n IH]; intros [|k]; try reflexivity. cbn. rewrite IH. reflexivity. Qed.
Lemma skipn_repeat (a : Qc) n k : skipn k (repeat a n) = repeat a (n - k).
Proof. revert k; induction n as [|n IH]; intros [|k]; try reflexivity. cbn. apply IH. Qed.

Lemma mean_repeat a n : (0 < n)%nat -> mean (repeat a n) = Some a.
Proof.
  intros H. destruct n as [|n]; [lia|]. unfold mean. cbn [repeat]. change (a :: repeat a n) with (repeat a (S n)).
  rewrite sum_repeat, repeat_length. f_equal. field.
  intros E. change 0 with (Qc_of_Z 0) in E. apply Qc_of_Z_inj in E. lia.
Qed.

Lemma centroid_repeat a n : (0 < n)%nat -> centroid (repeat a n) = Some a.
Proof.
  intros H. unfold centroid. rewrite repeat_length, sort_repeat, skipn_repeat, firstn_repeat. apply mean_repeat.
  pose proof (Nat.div_mod n 10 ltac:(lia)). lia.
Qed.

Lemma map_const_repeat {A} (f : A -> Qc) a l : Forall (fun x => f x = a) l -> map f l = repeat a (length l).
Proof. induction 1 as [|x l H _ IH]; [reflexivity|]. cbn. rewrite H, IH. reflexivity. Qed.

Theorem translation_recovered lstsq svd x0 y0 tx ty kps : kps <> [] -> exact_keypoints (Trn tx ty) kps ->
  fromkeypoints lstsq svd (Trn x0 y0) kps = Ok (Some (Trn tx ty)).
Proof.
  intros NE H. unfold fromkeypoints, translation_fromkeypoints, minus_list.
  rewrite !map_length, Nat.eqb_refl. cbn [bind].
  assert (C : forall f g : keypoint -> Qc, List.combine (map f kps) (map g kps) = map (fun k => (f k, g k)) kps).
  { intros f g. clear. induction kps as [|k l IH]; [reflexivity|]. cbn. rewrite IH. reflexivity. }
  rewrite !C, !map_map. cbn [fst snd].
  assert (L : (0 < length kps)%nat) by (destruct kps; [contradiction|cbn; lia]).
  rewrite (map_const_repeat (fun k => xsrc_of k - xdest_of k) tx), (map_const_repeat (fun k => ysrc_of k - ydest_of k) ty).
  - rewrite !(centroid_repeat _ _ L). reflexivity.
  - eapply Forall_impl; [|exact H]. intros [[xs ys] [xd yd]]. unfold ysrc_of, ydest_of. cbn [fst snd old_point].
    intros E. injection E as _ <-. ring.
  - eapply Forall_impl; [|exact H]. intros [[xs ys] [xd yd]]. unfold xsrc_of, xdest_of. cbn [fst snd old_point].
    intros E. injection E as <- _. ring.
Qed.

Theorem translation_no_keypoints lstsq svd x0 y0 : fromkeypoints lstsq svd (Trn x0 y0) [] = Ok None.
Proof. reflexivity. Qed.

Lemma square_nonneg (z : Qc) : 0 <= z * z.
Proof. qcnra. Qed.

Lemma sum_squares_nonneg A b x : 0 <= sum_squares A b x.
Proof.
  unfold sum_squares. induction (List.combine A b) as [|[r v] l IH]; cbn [map fold_right fst snd].
  - apply Qcle_refl.
  - pose proof (square_nonneg (dotp r x - v)) as S.
    set (u := (dotp r x - v) * (dotp r x - v)) in *. set (w := fold_right Qcplus 0 _) in *. clearbody u w. qclra.
Qed.

Lemma sum_squares_zero A b x : length A = length b -> sum_squares A b x <= 0 ->
  Forall (fun p => dotp (fst p) x = snd p) (List.combine A b).
Proof.
  intros _. unfold sum_squares. induction (List.combine A b) as [|[r v] l IH]; cbn [map fold_right fst snd]; [constructor|].
  intros H.
  assert (T : 0 <= fold_right Qcplus 0 (map (fun p => (dotp (fst p) x - snd p) * (dotp (fst p) x - snd p)) l)).
  { clear. induction l as [|[r v] l IH]; cbn [map fold_right fst snd]; [apply Qcle_refl|].
    pose proof (square_nonneg (dotp r x - v)) as S.
    set (u := (dotp r x - v) * (dotp r x - v)) in *. set (w := fold_right Qcplus 0 _) in *. clearbody u w. qclra. }
  pose proof (square_nonneg (dotp r x - v)) as S.
  set (z := dotp r x - v) in *. set (w := fold_right Qcplus 0 _) in *.
  assert (Z : z * z = 0) by (clearbody z w; clear IH; apply Qcle_antisym; qclra).
  assert (W : w <= 0) by (clearbody z w; clear IH; qclra).
  constructor; [|exact (IH W)].
  cbn [fst snd]. apply Qcmult_integral in Z. assert (E : z = 0) by tauto. unfold z in E.
  clear - E. set (d := dotp r x) in *. clearbody d. qclra.
Qed.

Lemma solves_exactly lstsq n rows x0 : solves lstsq n rows -> length x0 = n ->
  Forall (fun p => dotp (fst p) x0 = snd p) rows ->
  exists x, lstsq (map fst rows) (map snd rows) = Some x /\ length x = n /\ Forall (fun p => dotp (fst p) x = snd p) rows.
Proof.
  intros (x & E & L & M) L0 H. exists x. split; [exact E|]. split; [exact L|].
  assert (C : List.combine (map fst rows) (map snd rows) = rows).
  { clear. induction rows as [|[r v] l IH]; [reflexivity|]. cbn. rewrite IH. reflexivity. }
  pose proof (M x0 L0) as Hle.
  assert (Z : sum_squares (map fst rows) (map snd rows) x0 = 0).
  { unfold sum_squares. rewrite C. clear - H. induction H as [|[r v] l E _ IH]; [reflexivity|].
    cbn [map fold_right]. rewrite IH, E. cbn [fst snd]. ring. }
  rewrite Z in Hle. rewrite <- C. apply sum_squares_zero; [rewrite !map_length; reflexivity|exact Hle].
Qed.

Lemma Forall_flat_map {A B} (P : B -> Prop) (f : A -> list B) l : Forall P (flat_map f l) <-> Forall (fun a => Forall P (f a)) l.
Proof.
  induction l as [|a l IH]; cbn [flat_map].
  - split; constructor.
  - rewrite Forall_app, IH. split; [intros [H1 H2]; constructor; assumption|intros H; inversion H; subst; auto].
Qed.

Lemma plane_zero al be ga p q r : area2 p q r <> 0 ->
  al * fst p + be * snd p + ga = 0 -> al * fst q + be * snd q + ga = 0 -> al * fst r + be * snd r + ga = 0 ->
  al = 0 /\ be = 0 /\ ga = 0.
Proof.
  destruct p as [px py], q as [qx qy], r as [rx ry]. unfold area2. cbn [fst snd]. intros D P Q R.
  set (d := (qx - px) * (ry - py) - (rx - px) * (qy - py)) in *.
  assert (A : al * d = 0).
  { assert (al * d = (al * qx + be * qy + ga - (al * px + be * py + ga)) * (ry - py)
       - (al * rx + be * ry + ga - (al * px + be * py + ga)) * (qy - py)) as -> by (unfold d; ring).
    rewrite P, Q, R. ring. }
  assert (B : be * d = 0).
  { assert (be * d = (al * rx + be * ry + ga - (al * px + be * py + ga)) * (qx - px)
       - (al * qx + be * qy + ga - (al * px + be * py + ga)) * (rx - px)) as -> by (unfold d; ring).
    rewrite P, Q, R. ring. }
  apply Qcmult_integral in A. apply Qcmult_integral in B.
  assert (A0 : al = 0) by tauto. assert (B0 : be = 0) by tauto. split; [exact A0|]. split; [exact B0|].
  rewrite A0, B0 in P. clear - P. qclra.
Qed.

Theorem affine_recovered lstsq svd m0 m kps : is_affine m -> exact_keypoints (Lin Affine m) kps ->
  solves lstsq 6 (flat_map affine_rows kps) ->
  (exists p q r, In p (map snd kps) /\ In q (map snd kps) /\ In r (map snd kps) /\ area2 p q r <> 0) ->
  fromkeypoints lstsq svd (Lin Affine m0) kps = Ok (Some (Lin Affine m)).
Proof.
  intros A H S (p & q & r & Ip & Iq & Ir & D).
  destruct A as (A0 & A1 & A2).
  assert (HP : Forall (fun kp : keypoint => a00 m * fst (snd kp) + a01 m * snd (snd kp) + a02 m = fst (fst kp) /\
                                 a10 m * fst (snd kp) + a11 m * snd (snd kp) + a12 m = snd (fst kp)) kps).
  { eapply Forall_impl; [|exact H]. intros [[xs ys] [x y]]. cbn [fst snd]. rewrite old_point_homography. cbn [homography dehom].
    rewrite A0, A1, A2. assert (W : 0 * x + 0 * y + 1 = 1) by ring. rewrite W. replace (Qc_eqb 1 0) with false by reflexivity.
    intros E. injection E as <- <-. split; field; discriminate. }
  destruct (solves_exactly lstsq 6 _ [a00 m; a01 m; a02 m; a10 m; a11 m; a12 m] S eq_refl) as (x & E & L & F).
  { apply Forall_flat_map. eapply Forall_impl; [|exact HP]. intros [[xs ys] [x y]]. cbn [fst snd affine_rows].
    intros [E1 E2]. constructor; [|constructor; [|constructor]]; cbn [fst snd dotp].
    - rewrite <- E1. ring.
    - rewrite <- E2. ring. }
  apply Forall_flat_map in F.
  destruct x as [|a [|b [|t0 [|c [|d [|t1 [|z x]]]]]]]; try discriminate L.
  assert (G : forall pt, In pt (map snd kps) ->
     (a - a00 m) * fst pt + (b - a01 m) * snd pt + (t0 - a02 m) = 0 /\
     (c - a10 m) * fst pt + (d - a11 m) * snd pt + (t1 - a12 m) = 0).
  { intros pt I. apply in_map_iff in I. destruct I as ([[xs ys] [u v]] & <- & I). cbn [snd fst].
    rewrite Forall_forall in F, HP. specialize (F _ I). specialize (HP _ I). cbn [fst snd affine_rows] in F, HP.
    destruct HP as [H1 H2]. inversion F as [|? ? F1 F2]; subst. inversion F2 as [|? ? F3 _]; subst.
    cbn [fst snd dotp] in F1, F3.
    assert (X1 : (a - a00 m) * u + (b - a01 m) * v + (t0 - a02 m)
      = (u * a + (v * b + (1 * t0 + (0 * c + (0 * d + (0 * t1 + 0)))))) - (a00 m * u + a01 m * v + a02 m)) by ring.
    assert (X2 : (c - a10 m) * u + (d - a11 m) * v + (t1 - a12 m)
      = (0 * a + (0 * b + (0 * t0 + (u * c + (v * d + (1 * t1 + 0)))))) - (a10 m * u + a11 m * v + a12 m)) by ring.
    rewrite X1, X2, F1, F3. split; ring. }
  destruct (G p Ip) as [Gp Gp']. destruct (G q Iq) as [Gq Gq']. destruct (G r Ir) as [Gr Gr'].
  destruct (plane_zero _ _ _ p q r D Gp Gq Gr) as (Z1 & Z2 & Z3).
  destruct (plane_zero _ _ _ p q r D Gp' Gq' Gr') as (Z4 & Z5 & Z6).
  cbn [fromkeypoints]. unfold affine_fromkeypoints, solvelinearsystem. rewrite E.
  cbn [setidentity]. unfold setaffine, promote. do 3 f_equal. unfold set_aff.
  apply m33_eq; cbn [id33 a00 a01 a02 a10 a11 a12 a20 a21 a22 c00 c01 c02 c10 c11 c12]; try (symmetry; assumption).
  - clear - Z1. qclra.
  - clear - Z2. qclra.
  - clear - Z3. qclra.
  - clear - Z4. qclra.
  - clear - Z5. qclra.
  - clear - Z6. qclra.
Qed.

Theorem similarity_recovered lstsq svd m0 m kps : is_affine m -> is_similarity m -> exact_keypoints (Lin Similarity m) kps ->
  solves lstsq 4 (flat_map similarity_rows kps) ->
  (exists p q, In p (map snd kps) /\ In q (map snd kps) /\ p <> q) ->
  fromkeypoints lstsq svd (Lin Similarity m0) kps = Ok (Some (Lin Similarity m)).
Proof.
  intros A SI H S (p & q & Ip & Iq & D).
  destruct A as (A0 & A1 & A2). destruct SI as [S1 S2].
  assert (HP : Forall (fun kp : keypoint => a00 m * fst (snd kp) + a01 m * snd (snd kp) + a02 m = fst (fst kp) /\
                                 a10 m * fst (snd kp) + a11 m * snd (snd kp) + a12 m = snd (fst kp)) kps).
  { eapply Forall_impl; [|exact H]. intros [[xs ys] [x y]]. cbn [fst snd]. rewrite old_point_homography. cbn [homography dehom].
    rewrite A0, A1, A2. assert (W : 0 * x + 0 * y + 1 = 1) by ring. rewrite W. replace (Qc_eqb 1 0) with false by reflexivity.
    intros E. injection E as <- <-. split; field; discriminate. }
  destruct (solves_exactly lstsq 4 _ [a00 m; a10 m; a02 m; a12 m] S eq_refl) as (x & E & L & F).
  { apply Forall_flat_map. eapply Forall_impl; [|exact HP]. intros [[xs ys] [x y]]. cbn [fst snd similarity_rows].
    intros [E1 E2]. constructor; [|constructor; [|constructor]]; cbn [fst snd dotp].
    - rewrite <- E1, S2. ring.
    - rewrite <- E2, S1. ring. }
  apply Forall_flat_map in F.
  destruct x as [|a [|b [|t0 [|t1 [|z x]]]]]; try discriminate L.
  set (al := a - a00 m). set (be := b - a10 m). set (u0 := t0 - a02 m). set (u1 := t1 - a12 m).
  assert (G : forall pt, In pt (map snd kps) -> al * fst pt - be * snd pt + u0 = 0 /\ be * fst pt + al * snd pt + u1 = 0).
  { intros pt I. apply in_map_iff in I. destruct I as ([[xs ys] [u v]] & <- & I). cbn [snd fst].
    rewrite Forall_forall in F, HP. specialize (F _ I). specialize (HP _ I). cbn [fst snd similarity_rows] in F, HP.
    destruct HP as [H1 H2]. inversion F as [|? ? F1 F2]; subst. inversion F2 as [|? ? F3 _]; subst.
    cbn [fst snd dotp] in F1, F3.
    assert (X1 : al * u - be * v + u0
      = (u * a + (- v * b + (1 * t0 + (0 * t1 + 0)))) - (a00 m * u + a01 m * v + a02 m))
      by (unfold al, be, u0; rewrite S2; ring).
    assert (X2 : be * u + al * v + u1
      = (v * a + (u * b + (0 * t0 + (1 * t1 + 0)))) - (a10 m * u + a11 m * v + a12 m))
      by (unfold al, be, u1; rewrite S1; ring).
    rewrite X1, X2, F1, F3. split; ring. }
  destruct (G p Ip) as [Gp Gp']. destruct (G q Iq) as [Gq Gq'].
  assert (Z : al = 0 /\ be = 0 /\ u0 = 0 /\ u1 = 0).
  { destruct p as [px py], q as [qx qy]. cbn [fst snd] in *.
    set (dx := qx - px). set (dy := qy - py).
    assert (N : dx * dx + dy * dy <> 0).
    { intros N. pose proof (square_nonneg dx) as N1. pose proof (square_nonneg dy) as N2.
      assert (Nx : dx * dx = 0) by (apply Qcle_antisym; clearbody dx dy; clear - N N1 N2; qclra).
      assert (Ny : dy * dy = 0) by (apply Qcle_antisym; clearbody dx dy; clear - N N1 N2; qclra).
      apply Qcmult_integral in Nx. apply Qcmult_integral in Ny.
      assert (dx = 0) by tauto. assert (dy = 0) by tauto. apply D.
      assert (qx = px) by (unfold dx in *; clear - H0; qclra). assert (qy = py) by (unfold dy in *; clear - H1; qclra). congruence. }
    clearbody al be u0 u1.
    assert (P1 : al * dx - be * dy = 0).
    { replace (al * dx - be * dy) with ((al * qx - be * qy + u0) - (al * px - be * py + u0)) by (unfold dx, dy; ring).
      rewrite Gp, Gq. ring. }
    assert (P2 : be * dx + al * dy = 0).
    { replace (be * dx + al * dy) with ((be * qx + al * qy + u1) - (be * px + al * py + u1)) by (unfold dx, dy; ring).
      rewrite Gp', Gq'. ring. }
    assert (Q1 : al * (dx * dx + dy * dy) = 0).
    { replace (al * (dx * dx + dy * dy)) with ((al * dx - be * dy) * dx + (be * dx + al * dy) * dy) by ring. rewrite P1, P2. ring. }
    assert (Q2 : be * (dx * dx + dy * dy) = 0).
    { replace (be * (dx * dx + dy * dy)) with ((be * dx + al * dy) * dx - (al * dx - be * dy) * dy) by ring. rewrite P1, P2. ring. }
    apply Qcmult_integral in Q1. apply Qcmult_integral in Q2.
    assert (E1 : al = 0) by tauto. assert (E2 : be = 0) by tauto. rewrite E1, E2 in Gp, Gp'.
    split; [exact E1|]. split; [exact E2|]. split; [clear - Gp|clear - Gp']; qclra. }
  destruct Z as (Z1 & Z2 & Z3 & Z4). unfold al in Z1. unfold be in Z2. unfold u0 in Z3. unfold u1 in Z4.
  cbn [fromkeypoints]. unfold similarity_fromkeypoints, solvelinearsystem. rewrite E.
  cbn [setidentity]. unfold setlinear, promote. cbn [settranslation trn_values]. do 3 f_equal. unfold set_col2, set_lin.
  apply m33_eq; cbn [id33 a00 a01 a02 a10 a11 a12 a20 a21 a22 b00 b01 b10 b11 fst snd]; try (symmetry; assumption).
  - clear - Z1. qclra.
  - clear - Z2 S2. qclra.
  - clear - Z3. qclra.
  - clear - Z2. qclra.
  - clear - Z1 S1. qclra.
  - clear - Z4. qclra.
Qed.

Theorem projective_keypoints lstsq svd m kps : fromkeypoints lstsq svd (Lin Projective m) kps = Err NotImplementedError.
Proof. reflexivity. Qed.

Theorem fromtransform_ok s t : (fromtransform s t = Ok t <-> match s, t with Trn _ _, Trn _ _ | Lin _ _, Lin _ _ => True | _, _ => False end) /\
  (fromtransform s t <> Ok t -> fromtransform s t = Err ValueError).
Proof.
  destruct s as [x y|k m], t as [x' y'|k' m']; cbn [fromtransform]; (split; [split|]); intros H; try reflexivity; try exact I; try discriminate H; try contradiction; now destruct H.
Qed.

Theorem matrix_same_map s t k : forall p, old_point (written_as_matrix k s) p = old_point s p /\
  old_point (before (written_as_matrix k s) t) p = old_point (before s t) p /\
  old_point (before t (written_as_matrix k s)) p = old_point (before t s) p.
Proof.
  assert (H : homography (written_as_matrix k s) = homography s) by (destruct s; reflexivity).
  intros p. split; [exact (old_point_same _ _ H p)|]. split; apply old_point_same; rewrite !homography_before, H; reflexivity.
Qed.
