From Verif Require Import BaseProofs MatProofs TransformSpec.
Local Open Scope Qc_scope.

Lemma m33_eq p q : a00 p = a00 q -> a01 p = a01 q -> a02 p = a02 q ->
  a10 p = a10 q -> a11 p = a11 q -> a12 p = a12 q ->
  a20 p = a20 q -> a21 p = a21 q -> a22 p = a22 q -> p = q.
Proof. destruct p, q; cbn. intros; subst; reflexivity. Qed.

Lemma list3_eq (a b c a' b' c' : Qc) : a = a' -> b = b' -> c = c' -> Ok [a; b; c] = Ok [a'; b'; c'].
Proof. intros -> -> ->. reflexivity. Qed.

Lemma mul_assoc p q r : mul33 (mul33 p q) r = mul33 p (mul33 q r).
Proof. unfold mul33; apply m33_eq; cbn [a00 a01 a02 a10 a11 a12 a20 a21 a22]; ring. Qed.
Lemma mul_id_l p : mul33 id33 p = p.
Proof. unfold mul33, id33; apply m33_eq; cbn [a00 a01 a02 a10 a11 a12 a20 a21 a22]; ring. Qed.
Lemma mul_id_r p : mul33 p id33 = p.
Proof. unfold mul33, id33; apply m33_eq; cbn [a00 a01 a02 a10 a11 a12 a20 a21 a22]; ring. Qed.
Lemma det_mul p q : det33 (mul33 p q) = det33 p * det33 q.
Proof. unfold det33, mul33; cbn [a00 a01 a02 a10 a11 a12 a20 a21 a22]; ring. Qed.
Lemma det_id : det33 id33 = 1.
Proof. unfold det33, id33; cbn [a00 a01 a02 a10 a11 a12 a20 a21 a22]; ring. Qed.

Lemma inv33_singular p : det33 p = 0 -> inv33 p = Err LinAlgError.
Proof. intros H. unfold inv33. cbv zeta. rewrite (proj2 (Qc_eqb_spec _ _) H). reflexivity. Qed.

Lemma inv33_ok p : det33 p <> 0 -> exists i, inv33 p = Ok i /\ mul33 p i = id33 /\ mul33 i p = id33.
Proof.
  intros H. unfold inv33. cbv zeta. rewrite (proj2 (Qc_eqb_false _ _) H).
  eexists; split; [reflexivity|].
  split; unfold mul33, id33; apply m33_eq; cbn [a00 a01 a02 a10 a11 a12 a20 a21 a22];
    unfold det33 in *; field; exact H.
Qed.

Lemma inv33_dec p : (det33 p = 0 /\ inv33 p = Err LinAlgError) \/
  (det33 p <> 0 /\ exists i, inv33 p = Ok i /\ mul33 p i = id33 /\ mul33 i p = id33).
Proof.
  destruct (Qc_eqb (det33 p) 0) eqn:E.
  - left. apply Qc_eqb_spec in E. split; [exact E|exact (inv33_singular p E)].
  - right. apply Qc_eqb_false in E. split; [exact E|exact (inv33_ok p E)].
Qed.

Lemma inverse_unique p i j : mul33 p i = id33 -> mul33 j p = id33 -> i = j.
Proof. intros H1 H2. rewrite <- (mul_id_l i), <- H2, mul_assoc, H1. apply mul_id_r. Qed.

Lemma inv33_of p j : mul33 j p = id33 -> inv33 p = Ok j.
Proof.
  intros H. destruct (inv33_dec p) as [[D _]|[_ (i & -> & Hi & _)]].
  - exfalso. pose proof (det_mul j p) as E. rewrite H, D, det_id in E.
    assert (F : det33 j * 0 = 0) by ring. rewrite F in E. discriminate E.
  - f_equal. exact (inverse_unique p i j Hi H).
Qed.

Lemma inv33_mul p q : inv33 (mul33 p q) = (let! j := inv33 q in let! i := inv33 p in Ok (mul33 j i)).
Proof.
  destruct (inv33_dec q) as [[D E]|[Dq (j & E & Hj1 & Hj2)]].
  - rewrite E. cbn [bind]. apply inv33_singular. rewrite det_mul, D. ring.
  - rewrite E. cbn [bind]. destruct (inv33_dec p) as [[D F]|[Dp (i & F & Hi1 & Hi2)]].
    + rewrite F. cbn [bind]. apply inv33_singular. rewrite det_mul, D. ring.
    + rewrite F. cbn [bind]. apply inv33_of. rewrite mul_assoc, <- (mul_assoc i p q), Hi2, mul_id_l. exact Hj2.
Qed.

(** ** Combining *)
Lemma as_matrix_homography s : as_matrix s = homography s.
Proof. destruct s; reflexivity. Qed.

Lemma homography_before s C : homography (before s C) = mul33 (homography s) (homography C).
Proof.
  destruct s as [x y|k m], C as [x' y'|k' m']; try reflexivity.
  unfold before, combine, homography, mul33. apply m33_eq; cbn [a00 a01 a02 a10 a11 a12 a20 a21 a22]; ring.
Qed.
Lemma homography_after s C : homography (after s C) = mul33 (homography C) (homography s).
Proof.
  destruct s as [x y|k m], C as [x' y'|k' m']; try reflexivity.
  unfold after, combine, homography, mul33. apply m33_eq; cbn [a00 a01 a02 a10 a11 a12 a20 a21 a22]; ring.
Qed.

Definition rank (o : option mkind) : nat :=
  match o with None => 0 | Some Rigid => 1 | Some Similarity => 2 | Some Affine => 3 | Some Projective => 4 end%nat.
Lemma rank_inj o o' : rank o = rank o' -> o = o'.
Proof. destruct o as [[]|], o' as [[]|]; cbn; intros H; (reflexivity || discriminate H). Qed.
Lemma rank_before s C : rank (kind_of (before s C)) = Nat.max (rank (kind_of s)) (rank (kind_of C)).
Proof. destruct s as [x y|[] m], C as [x' y'|[] m']; reflexivity. Qed.
Lemma rank_after s C : rank (kind_of (after s C)) = Nat.max (rank (kind_of s)) (rank (kind_of C)).
Proof. destruct s as [x y|[] m], C as [x' y'|[] m']; reflexivity. Qed.

Lemma homography_trn x y x' y' : homography (Trn x y) = homography (Trn x' y') -> Trn x y = Trn x' y'.
Proof.
  intros H. f_equal; [exact (f_equal a02 H)|exact (f_equal a12 H)].
Qed.
Lemma mapping_eq s t : rank (kind_of s) = rank (kind_of t) -> homography s = homography t -> s = t.
Proof.
  intros K H. apply rank_inj in K.
  destruct s as [x y|k m], t as [x' y'|k' m']; cbn [kind_of] in K; try discriminate K.
  - exact (homography_trn _ _ _ _ H).
  - injection K as ->. cbn [homography] in H. subst. reflexivity.
Qed.

Lemma before_assoc s t u : before (before s t) u = before s (before t u).
Proof.
  apply mapping_eq.
  - rewrite !rank_before. lia.
  - rewrite !homography_before. apply mul_assoc.
Qed.
Lemma after_is_before s t : after s t = before t s.
Proof.
  apply mapping_eq.
  - rewrite rank_after, rank_before. lia.
  - rewrite homography_after, homography_before. reflexivity.
Qed.

(** ** What a mapping does to points *)
Lemma old_point_homography s x y :
  old_point s (x, y) =
  dehom [a00 (homography s) * x + a01 (homography s) * y + a02 (homography s);
         a10 (homography s) * x + a11 (homography s) * y + a12 (homography s);
         a20 (homography s) * x + a21 (homography s) * y + a22 (homography s)].
Proof.
  destruct s as [tx ty|k m]; cbn [old_point dehom homography a00 a01 a02 a10 a11 a12 a20 a21 a22]; [|reflexivity].
  assert (E : 0 * x + 0 * y + 1 = 1) by ring. rewrite E.
  replace (Qc_eqb 1 0) with false by reflexivity.
  f_equal. f_equal; field; discriminate.
Qed.

Lemma dehom_mul p X Y W : W <> 0 ->
  dehom [a00 p * X + a01 p * Y + a02 p * W; a10 p * X + a11 p * Y + a12 p * W; a20 p * X + a21 p * Y + a22 p * W]
  = dehom [a00 p * (X / W) + a01 p * (Y / W) + a02 p; a10 p * (X / W) + a11 p * (Y / W) + a12 p;
           a20 p * (X / W) + a21 p * (Y / W) + a22 p].
Proof.
  intros H. cbn [dehom].
  set (D := a20 p * X + a21 p * Y + a22 p * W).
  set (D' := a20 p * (X / W) + a21 p * (Y / W) + a22 p).
  assert (E : D = D' * W) by (unfold D, D'; field; exact H).
  assert (N0 : a00 p * X + a01 p * Y + a02 p * W = (a00 p * (X / W) + a01 p * (Y / W) + a02 p) * W) by (field; exact H).
  assert (N1 : a10 p * X + a11 p * Y + a12 p * W = (a10 p * (X / W) + a11 p * (Y / W) + a12 p) * W) by (field; exact H).
  rewrite N0, N1, E.
  set (n0 := a00 p * (X / W) + a01 p * (Y / W) + a02 p).
  set (n1 := a10 p * (X / W) + a11 p * (Y / W) + a12 p).
  clearbody n0 n1 D'.
  destruct (Qc_eqb D' 0) eqn:Z.
  - apply Qc_eqb_spec in Z. rewrite Z. replace (0 * W) with 0 by ring. reflexivity.
  - apply Qc_eqb_false in Z.
    assert (Z' : D' * W <> 0) by (intros C; apply Qcmult_integral in C; tauto).
    rewrite (proj2 (Qc_eqb_false _ _) Z').
    f_equal. f_equal; field; split; assumption.
Qed.

Lemma old_point_mul s C x y q : old_point C (x, y) = Some q ->
  old_point (Lin Projective (mul33 (homography s) (homography C))) (x, y) = old_point s q.
Proof.
  rewrite old_point_homography. cbn [dehom].
  set (c := homography C).
  set (X := a00 c * x + a01 c * y + a02 c). set (Y := a10 c * x + a11 c * y + a12 c).
  set (W := a20 c * x + a21 c * y + a22 c).
  destruct (Qc_eqb W 0) eqn:Z; [discriminate|]. apply Qc_eqb_false in Z. intros E. injection E as <-.
  rewrite (old_point_homography s). rewrite <- (dehom_mul (homography s) X Y W Z).
  rewrite old_point_homography. cbn [homography]. set (p := homography s).
  assert (E0 : a00 (mul33 p c) * x + a01 (mul33 p c) * y + a02 (mul33 p c) = a00 p * X + a01 p * Y + a02 p * W)
    by (unfold X, Y, W, mul33; cbn [a00 a01 a02 a10 a11 a12 a20 a21 a22]; ring).
  assert (E1 : a10 (mul33 p c) * x + a11 (mul33 p c) * y + a12 (mul33 p c) = a10 p * X + a11 p * Y + a12 p * W)
    by (unfold X, Y, W, mul33; cbn [a00 a01 a02 a10 a11 a12 a20 a21 a22]; ring).
  assert (E2 : a20 (mul33 p c) * x + a21 (mul33 p c) * y + a22 (mul33 p c) = a20 p * X + a21 p * Y + a22 p * W)
    by (unfold X, Y, W, mul33; cbn [a00 a01 a02 a10 a11 a12 a20 a21 a22]; ring).
  rewrite E0, E1, E2. reflexivity.
Qed.

Lemma old_point_same s t : homography s = homography t -> forall p, old_point s p = old_point t p.
Proof. intros H [x y]. rewrite !old_point_homography, H. reflexivity. Qed.

Theorem points_combined s t p q : old_point t p = Some q ->
  old_point (before s t) p = old_point s q /\ old_point (after t s) p = old_point s q.
Proof.
  intros H. destruct p as [x y].
  assert (B : old_point (before s t) (x, y) = old_point s q).
  { rewrite <- (old_point_mul s t x y q H). apply old_point_same. rewrite homography_before. reflexivity. }
  split; [exact B|]. rewrite after_is_before. exact B.
Qed.

Lemma old_point_id s : homography s = id33 -> forall p, old_point s p = Some p.
Proof.
  intros H [x y]. rewrite old_point_homography, H. unfold id33, dehom. cbn [a00 a01 a02 a10 a11 a12 a20 a21 a22].
  assert (E : 0 * x + 0 * y + 1 = 1) by ring. rewrite E. replace (Qc_eqb 1 0) with false by reflexivity.
  f_equal. f_equal; field; discriminate.
Qed.

(** ** Inverse *)
Lemma inverse_homography s i : inverse s = Ok i ->
  mul33 (homography s) (homography i) = id33 /\ mul33 (homography i) (homography s) = id33 /\ rank (kind_of i) = rank (kind_of s).
Proof.
  destruct s as [x y|k m]; cbn [inverse].
  - intros E. injection E as <-. cbn [homography kind_of].
    split; [|split; [|reflexivity]]; unfold mul33, id33; apply m33_eq; cbn [a00 a01 a02 a10 a11 a12 a20 a21 a22]; ring.
  - destruct (inv33_dec m) as [[_ E]|[_ (j & E & H1 & H2)]]; rewrite E; cbn [bind]; [discriminate|].
    intros F. injection F as <-. cbn [homography kind_of]. exact (conj H1 (conj H2 eq_refl)).
Qed.

Lemma inverse_defined s :
  (invertible s -> exists i, inverse s = Ok i) /\ (~ invertible s -> inverse s = Err LinAlgError).
Proof.
  destruct s as [x y|k m]; cbn [invertible inverse].
  - split; [intros _; eexists; reflexivity|tauto].
  - destruct (inv33_dec m) as [[D E]|[D (j & E & H1 & H2)]]; rewrite E; cbn [bind]; split; intros H; try tauto.
    eexists; reflexivity.
Qed.

Theorem inverse_undoes s i p q : inverse s = Ok i -> old_point s p = Some q -> old_point i q = Some p.
Proof.
  intros E H. destruct (inverse_homography _ _ E) as (_ & H2 & _).
  rewrite <- (proj1 (points_combined i s p q H)). apply old_point_id. rewrite homography_before. exact H2.
Qed.

Theorem inverse_twice s i : inverse s = Ok i -> inverse i = Ok s.
Proof.
  intros E. destruct (inverse_homography _ _ E) as (H1 & H2 & K).
  destruct (proj1 (inverse_defined i)) as [j Ej].
  { destruct i as [x y|k m]; cbn [invertible]; [exact I|]. cbn [homography] in H2. intros D.
    pose proof (det_mul m (homography s)) as F. rewrite H2, D, det_id in F.
    replace (0 * det33 (homography s)) with 0 in F by ring. discriminate F. }
  rewrite Ej. f_equal. destruct (inverse_homography _ _ Ej) as (G1 & G2 & K').
  apply mapping_eq; [congruence|]. symmetry. exact (inverse_unique (homography i) _ _ H2 G2).
Qed.

Lemma inverse_before s t : inverse (before s t) = (let! j := inverse t in let! i := inverse s in Ok (before j i)).
Proof.
  destruct s as [x y|k m], t as [x' y'|k' m'].
  - cbn [inverse bind before combine]. do 2 f_equal; ring.
  - change (before (Trn x y) (Lin k' m')) with (Lin (combine_kind (Trn x y) (Lin k' m')) (mul33 (as_matrix (Trn x y)) m')).
    cbn [inverse]. rewrite inv33_mul. destruct (inv33 m') as [j|e]; cbn [bind]; [|reflexivity].
    assert (E : inv33 (as_matrix (Trn x y)) = Ok (as_matrix (Trn (- x) (- y)))).
    { apply inv33_of. unfold as_matrix, set_col2, id33, mul33.
      apply m33_eq; cbn [a00 a01 a02 a10 a11 a12 a20 a21 a22 fst snd]; ring. }
    rewrite E. cbn [bind]. unfold before, combine. cbn [as_matrix]. do 2 f_equal. destruct k'; reflexivity.
  - change (before (Lin k m) (Trn x' y')) with (Lin (combine_kind (Lin k m) (Trn x' y')) (mul33 m (as_matrix (Trn x' y')))).
    cbn [inverse]. rewrite inv33_mul.
    assert (E : inv33 (as_matrix (Trn x' y')) = Ok (as_matrix (Trn (- x') (- y')))).
    { apply inv33_of. unfold as_matrix, set_col2, id33, mul33.
      apply m33_eq; cbn [a00 a01 a02 a10 a11 a12 a20 a21 a22 fst snd]; ring. }
    rewrite E. cbn [bind]. destruct (inv33 m) as [i|e]; cbn [bind]; [|reflexivity].
    unfold before, combine. cbn [as_matrix]. do 2 f_equal. destruct k; reflexivity.
  - change (before (Lin k m) (Lin k' m')) with (Lin (combine_kind (Lin k m) (Lin k' m')) (mul33 m m')).
    cbn [inverse]. rewrite inv33_mul. destruct (inv33 m') as [j|e]; cbn [bind]; [|reflexivity].
    destruct (inv33 m) as [i|e]; cbn [bind]; [|reflexivity].
    unfold before, combine. cbn [as_matrix]. do 2 f_equal. destruct k, k'; reflexivity.
Qed.

(** ** Frames *)
Lemma new_frame_inplace_same s C : new_frame_inplace s C = new_frame s C.
Proof.
  unfold new_frame_inplace, new_frame. destruct (inverse C) as [i|e]; cbn [bind]; [|reflexivity].
  rewrite after_is_before. reflexivity.
Qed.

Theorem frames_combine s C D : (let! s' := new_frame s C in new_frame s' D) = new_frame s (before C D).
Proof.
  unfold new_frame. rewrite inverse_before.
  destruct (inverse C) as [i|e] eqn:EC; cbn [bind].
  - destruct (inverse D) as [j|e]; cbn [bind]; [|reflexivity].
    f_equal. rewrite !before_assoc. reflexivity.
  - destruct (inverse D) as [j|e'] eqn:ED; cbn [bind]; [reflexivity|].
    assert (X : e = LinAlgError).
    { destruct C as [x y|k m]; cbn [inverse] in EC; [discriminate EC|].
      destruct (inv33_dec m) as [[_ E]|[_ (? & E & _)]]; rewrite E in EC; cbn [bind] in EC; congruence. }
    assert (Y : e' = LinAlgError).
    { destruct D as [x y|k m]; cbn [inverse] in ED; [discriminate ED|].
      destruct (inv33_dec m) as [[_ E]|[_ (? & E & _)]]; rewrite E in ED; cbn [bind] in ED; congruence. }
    congruence.
Qed.

Theorem new_frame_points s C s' p q q' : new_frame s C = Ok s' ->
  old_point C p = Some q -> old_point s q = Some q' ->
  forall p', old_point C p' = Some q' -> old_point s' p = Some p'.
Proof.
  intros E H1 H2 p' H3. unfold new_frame in E.
  destruct (inverse C) as [i|e] eqn:EC; cbn [bind] in E; [|discriminate E]. injection E as <-.
  rewrite (proj1 (points_combined _ _ _ _ H1)).
  rewrite (proj1 (points_combined _ _ _ _ H2)). exact (inverse_undoes _ _ _ _ EC H3).
Qed.

(** ** Coordinates *)
Theorem coordinates_points s x y : exists v, transformcoordinatesinverse s [x; y; 1] = Ok v /\ dehom v = old_point s (x, y).
Proof.
  destruct s as [tx ty|k m].
  - eexists; split; [reflexivity|]. unfold dehom. replace (Qc_eqb 1 0) with false by reflexivity.
    cbn [old_point]. f_equal. f_equal; field; discriminate.
  - eexists; split; [reflexivity|]. rewrite old_point_homography. cbn [homography].
    rewrite !Qcmult_1_r. reflexivity.
Qed.

Lemma coordinates_inverse s v :
  transformcoordinates s v = (let! i := inverse s in transformcoordinatesinverse i v).
Proof. destruct s as [x y|k m]; [reflexivity|]. cbn [transformcoordinates inverse]. destruct (inv33 m); reflexivity. Qed.

Theorem coordinates_shapes s v :
  (exists w, transformcoordinatesinverse s v = Ok w) <->
  (length v = 3%nat \/ (length v = 2%nat /\ kind_of s = None)).
Proof.
  destruct s as [x y|k m]; cbn [transformcoordinatesinverse kind_of];
    destruct v as [|a [|b [|c [|d v]]]]; cbn [translate_coordinates mulv33 length];
    (split; [intros [w E]; try discriminate E | intros [H|[H H']]; try discriminate H; try discriminate H']); eauto; lia.
Qed.

Lemma coordinates_compose_lin k m k' m' v u : mulv33 m' v = Ok u ->
  transformcoordinatesinverse (before (Lin k m) (Lin k' m')) v = mulv33 m u.
Proof.
  intros H. unfold before, combine. cbn [as_matrix transformcoordinatesinverse].
  destruct v as [|a [|b [|c [|d v]]]]; try discriminate H. cbn [mulv33] in H. injection H as <-.
  cbn [mulv33]. apply list3_eq; unfold mul33; cbn [a00 a01 a02 a10 a11 a12 a20 a21 a22]; ring.
Qed.

(* as long as the homogeneous coordinate is 1 *)
Theorem coordinates_compose s t x y : well_kinded t -> not_projective t ->
  exists u, transformcoordinatesinverse t [x; y; 1] = Ok u /\
    transformcoordinatesinverse (before s t) [x; y; 1] = transformcoordinatesinverse s u.
Proof.
  intros K N.
  assert (exists X Y, transformcoordinatesinverse t [x; y; 1] = Ok [X; Y; 1] /\
            X = a00 (homography t) * x + a01 (homography t) * y + a02 (homography t) /\
            Y = a10 (homography t) * x + a11 (homography t) * y + a12 (homography t) /\
            a20 (homography t) = 0 /\ a21 (homography t) = 0 /\ a22 (homography t) = 1) as (X & Y & E & EX & EY & L0 & L1 & L2).
  { destruct t as [tx ty|k m].
    - eexists _, _. split; [reflexivity|]. cbn [homography a00 a01 a02 a10 a11 a12 a20 a21 a22].
      split; [ring|]. split; [ring|]. auto.
    - assert (A : is_affine m) by (destruct k; cbn in K, N; tauto).
      destruct A as (A0 & A1 & A2). eexists _, _. split.
      + cbn [transformcoordinatesinverse mulv33]. rewrite A0, A1, A2.
        replace (0 * x + 0 * y + 1 * 1) with 1 by ring. reflexivity.
      + cbn [homography]. split; [ring|]. split; [ring|]. auto. }
  eexists. split; [exact E|].
  destruct s as [sx sy|ks ms], t as [tx ty|kt mt].
  - cbn [before combine transformcoordinatesinverse translate_coordinates] in *.
    cbn [homography a00 a01 a02 a10 a11 a12] in EX, EY. rewrite EX, EY.
    assert (F0 : x + (sx + tx) = 1 * x + 0 * y + tx + sx) by ring.
    assert (F1 : y + (sy + ty) = 0 * x + 1 * y + ty + sy) by ring. rewrite F0, F1. reflexivity.
  - cbn [homography] in *. unfold before, combine. cbn [as_matrix transformcoordinatesinverse mulv33 translate_coordinates].
    unfold mul33, set_col2, id33. cbn [a00 a01 a02 a10 a11 a12 a20 a21 a22 fst snd].
    rewrite EX, EY, L0, L1, L2. apply list3_eq; ring.
  - cbn [homography a00 a01 a02 a10 a11 a12] in EX, EY. unfold before, combine.
    cbn [as_matrix transformcoordinatesinverse mulv33 translate_coordinates].
    unfold mul33, set_col2, id33. cbn [a00 a01 a02 a10 a11 a12 a20 a21 a22 fst snd].
    rewrite EX, EY. apply list3_eq; ring.
  - cbn [transformcoordinatesinverse] in E |- *. exact (coordinates_compose_lin ks ms kt mt _ _ E).
Qed.

(** ** Kinds *)
Lemma fits_weaken k k' m : fits k m -> (rank (Some k) <= rank (Some k'))%nat -> fits k' m.
Proof. destruct k, k'; cbn [fits rank]; intros; try lia; tauto. Qed.

Lemma fits_affine k m : fits k m -> k <> Projective -> is_affine m.
Proof. destruct k; cbn [fits]; tauto. Qed.

Lemma is_affine_mul m n : is_affine m -> is_affine n -> is_affine (mul33 m n).
Proof.
  intros (A & B & C) (D & E & F). unfold is_affine, mul33. cbn [a20 a21 a22].
  rewrite A, B, C, D, E, F. split; [ring|split; ring].
Qed.
Lemma is_similarity_mul m n : is_affine n -> is_similarity m -> is_similarity n -> is_similarity (mul33 m n).
Proof.
  intros (D & E & F) (A & B) (A' & B'). unfold is_similarity, mul33. cbn [a00 a01 a10 a11].
  rewrite A, B, A', B', D, E. split; ring.
Qed.
Lemma is_rigid_mul m n : is_affine n -> is_similarity n -> is_rigid m -> is_rigid n -> is_rigid (mul33 m n).
Proof.
  intros (D & E & F) (A' & B') R R'. unfold is_rigid, mul33 in *. cbn [a00 a01].
  rewrite A', B', D, E.
  assert (X : (a00 m * a00 n + a01 m * - a01 n + a02 m * 0) * (a00 m * a00 n + a01 m * - a01 n + a02 m * 0)
    + (a00 m * a01 n + a01 m * a00 n + a02 m * 0) * (a00 m * a01 n + a01 m * a00 n + a02 m * 0)
    = (a00 m * a00 m + a01 m * a01 m) * (a00 n * a00 n + a01 n * a01 n)) by ring.
  rewrite X, R, R'. ring.
Qed.

Lemma fits_mul k m n : fits k m -> fits k n -> fits k (mul33 m n).
Proof.
  destruct k; cbn [fits].
  - intros (A & B & C) (D & E & F).
    exact (conj (is_affine_mul _ _ A D) (conj (is_similarity_mul _ _ D B E) (is_rigid_mul _ _ D E C F))).
  - intros (A & B) (D & E). exact (conj (is_affine_mul _ _ A D) (is_similarity_mul _ _ D B E)).
  - apply is_affine_mul.
  - auto.
Qed.

Lemma fits_trn k x y : fits k (set_col2 id33 (x, y)).
Proof.
  assert (A : is_affine (set_col2 id33 (x, y))) by (split; [reflexivity|split; reflexivity]).
  assert (B : is_similarity (set_col2 id33 (x, y))).
  { unfold is_similarity, set_col2, id33. cbn [a00 a01 a10 a11]. split; ring. }
  assert (C : is_rigid (set_col2 id33 (x, y))).
  { unfold is_rigid, set_col2, id33. cbn [a00 a01]. ring. }
  destruct k; cbn [fits]; auto.
Qed.

Lemma fits_as_matrix s k : well_kinded s -> (rank (kind_of s) <= rank (Some k))%nat -> fits k (as_matrix s).
Proof.
  destruct s as [x y|k' m]; cbn [well_kinded kind_of as_matrix].
  - intros _ _. apply fits_trn.
  - apply fits_weaken.
Qed.

Theorem before_kinded s t : well_kinded s -> well_kinded t -> well_kinded (before s t).
Proof.
  intros Hs Ht. pose proof (rank_before s t) as R.
  assert (F : forall k m, before s t = Lin k m -> m = mul33 (as_matrix s) (as_matrix t)).
  { intros k m E. rewrite !as_matrix_homography, <- homography_before, E. reflexivity. }
  destruct (before s t) as [x y|k m] eqn:E; [exact I|]. cbn [well_kinded kind_of] in *.
  rewrite (F k m eq_refl). apply fits_mul; apply fits_as_matrix; try assumption; rewrite R; lia.
Qed.

Lemma inv33_form m i : inv33 m = Ok i -> is_affine m ->
  let d := a00 m * a11 m - a01 m * a10 m in
  d <> 0 /\ i = M33 (a11 m / d) (- a01 m / d) ((a01 m * a12 m - a02 m * a11 m) / d)
                    (- a10 m / d) (a00 m / d) ((a02 m * a10 m - a00 m * a12 m) / d) 0 0 1.
Proof.
  intros E (A & B & C) d.
  assert (D : d = det33 m) by (unfold d, det33; rewrite A, B, C; ring).
  unfold inv33 in E. cbv zeta in E. rewrite <- D in E.
  destruct (Qc_eqb d 0) eqn:Z; [discriminate E|]. apply Qc_eqb_false in Z. split; [exact Z|].
  assert (Z' : a00 m * a11 m - a01 m * a10 m <> 0) by exact Z.
  injection E as <-. rewrite A, B, C.
  apply m33_eq; cbn [a00 a01 a02 a10 a11 a12 a20 a21 a22]; unfold d; field; exact Z'.
Qed.

Theorem inverse_kinded s i : well_kinded s -> inverse s = Ok i -> well_kinded i.
Proof.
  destruct s as [x y|k m]; cbn [inverse]; intros K E; [injection E as <-; exact I|].
  destruct (inv33 m) as [j|e] eqn:Ej; cbn [bind] in E; [|discriminate E]. injection E as <-.
  cbn [well_kinded] in *. destruct (match k with Projective => true | _ => false end) eqn:P.
  - destruct k; try discriminate P. exact I.
  - assert (N : k <> Projective) by (intros ->; discriminate P).
    destruct (inv33_form m j Ej (fits_affine _ _ K N)) as [D Hj].
    set (d := a00 m * a11 m - a01 m * a10 m) in *.
    assert (A : is_affine j) by (rewrite Hj; split; [reflexivity|split; reflexivity]).
    assert (S : is_similarity m -> is_similarity j).
    { intros [S1 S2]. rewrite Hj. unfold is_similarity. cbn [a00 a01 a10 a11]. rewrite S1, S2.
      split; [reflexivity|]. field. exact D. }
    assert (R : is_similarity m -> is_rigid m -> is_rigid j).
    { intros [S1 S2] R. rewrite Hj. unfold is_rigid. cbn [a00 a01].
      assert (Ed : d = 1) by (unfold d; rewrite S1, S2; unfold is_rigid in R; rewrite <- R; ring).
      rewrite Ed, S1. unfold is_rigid in R. rewrite <- R at 5.
      assert (X : a00 m / 1 * (a00 m / 1) + - a01 m / 1 * (- a01 m / 1) = a00 m * a00 m + a01 m * a01 m)
        by (field; discriminate). rewrite X. exact R || reflexivity. }
    destruct k; cbn [fits] in *; tauto.
Qed.
