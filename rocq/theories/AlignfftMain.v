From Verif Require Import BaseProofs QcTac NumpyModel FtModel FtSpec FtProofs FtDftProofs FtComplexProofs AlignfftModel AlignfftSpec AlignfftProofs AlignfftPeak AlignfftLine AlignfftPlane AlignfftImage.
From Coq Require Import Reals Qreals Lra Lia.
Local Open Scope R_scope.
Local Notation K := complex_reals.
Local Notation L := cx_laws.
Local Notation e := (cexp complex_reals).
Local Notation sum := (csum complex_reals).
Add Ring CxRing3 : cx_ring.
Ltac cxring := match goal with |- ?a = ?b => change (@eq (cnum K) a b) end; ring.

(* ---- the transform of an image ---- *)
Definition filled (cval : filler) (im : image) : image :=
  {| height := height im; width := width im; pixel := fun i j => if is_missing cval (pixel im i j) then Some 0 else pixel im i j |}.
Lemma filled_pixel cval im g i j : pixels cval im g -> (i < height im)%nat -> (j < width im)%nat -> pixel (filled cval im) i j = Some (g i j).
Proof.
  intros H Hi Hj. cbn [filled pixel]. destruct (H i j Hi Hj) as [(-> & -> & ->)|[(v & -> & -> & ->)|(-> & N)]]; cbn [is_missing].
  - reflexivity.
  - destruct (Req_EM_T v 0) as [->|V]; [reflexivity|]. destruct (Req_EM_T v v); [reflexivity|congruence].
  - destruct cval as [|v]; [reflexivity|]. cbn [is_missing]. destruct (Req_EM_T v 0); [reflexivity|]. destruct (Req_EM_T (g i j) v) as [E|E]; [|reflexivity].
    exfalso. apply N. now rewrite E.
Qed.
Lemma existsb_false' {A} (p : A -> bool) l : (forall x, In x l -> p x = false) -> existsb p l = false.
Proof. induction l as [|x l IH]; intros H; [reflexivity|]. cbn. rewrite (H x) by now left. apply IH. intros; apply H. now right. Qed.
Lemma filled_numbers cval im g : pixels cval im g -> has_nan (filled cval im) = false.
Proof.
  intros H. unfold has_nan. apply existsb_false'. intros i Ii. apply in_seq in Ii. apply existsb_false'. intros j Ij. apply in_seq in Ij.
  cbn [filled height width] in Ii, Ij. rewrite (filled_pixel cval im g) by (assumption || lia). reflexivity.
Qed.
Lemma fft_line mem cval im row n g : (0 < n)%nat -> line cval im row n g ->
  fft_handle_missing mem cval im = Ok (Line (map (coef n (fun i => (g i, 0))) (seq 0 n))) /\ is1D im = true.
Proof.
  intros Hn HL. assert (height im * width im = n /\ is1D im = true)%nat as [A B].
  { unfold line, is1D in *. destruct row, HL as (-> & -> & _); split; lia. }
  split; [|exact B]. unfold fft_handle_missing. fold (filled cval im). rewrite A.
  assert (has_nan (filled cval im) = false) as ->.
  { unfold line in HL. destruct row, HL as (_ & _ & P); eapply filled_numbers; eassumption. }
  destruct (Nat.eqb_spec n 0); [lia|]. change (is1D (filled cval im)) with (is1D im). rewrite B.
  assert (map (fun k => number (pixel (filled cval im) (k / width im) (k mod width im))) (seq 0 n) = map (fun i => (g i, 0)) (seq 0 n)) as ->.
  { apply map_ext_in. intros k Ik. apply in_seq in Ik. unfold line in HL. destruct row, HL as (E1 & E2 & P).
    - rewrite E2. rewrite Nat.div_small, Nat.mod_small by lia. rewrite (filled_pixel cval im _ _ _ P) by lia. reflexivity.
    - rewrite E2. rewrite Nat.div_1_r, Nat.mod_1_r. rewrite (filled_pixel cval im _ _ _ P) by lia. reflexivity. }
  exact (f_equal (fun r => let! f := r in Ok (Line f)) (fft_values mem n (fun i => (g i, 0)) Hn)).
Qed.
Lemma fft_plane mem cval im r c g : (2 <= r)%nat -> (2 <= c)%nat -> height im = r -> width im = c -> pixels cval im g ->
  is1D im = false /\ exists F, fft_handle_missing mem cval im = Ok (Plane F) /\ @shp cx F = [r; c] /\
    forall i j, (i < r)%nat -> (j < c)%nat -> elt F [i; j] = coef2 r c (fun y x => (g y x, 0)) i j.
Proof.
  intros Hr Hc <- <- P. assert (is1D im = false) as B.
  { unfold is1D. apply Bool.orb_false_iff. split; apply Nat.eqb_neq; nia. }
  split; [exact B|]. destruct (fft2_values mem (height im) (width im) (fun i j => number (pixel (filled cval im) i j))) as (F & EF & SF & VF); [lia|lia|].
  exists F. split; [|split; [exact SF|]].
  - unfold fft_handle_missing. fold (filled cval im). destruct (Nat.eqb_spec (height im * width im) 0); [nia|].
    rewrite (filled_numbers cval im g P). change (is1D (filled cval im)) with (is1D im). rewrite B. rewrite EF. reflexivity.
  - intros i j Hi Hj. rewrite VF by assumption. unfold coef2. apply coef_ext. intros x Hx. apply coef_ext. intros y Hy.
    rewrite (filled_pixel cval im g) by assumption. reflexivity.
Qed.

(* ---- frequencies ---- *)
Lemma Q2R_Qc_mult (p q : Qc) : Q2R (this (p * q)%Qc) = Q2R (this p) * Q2R (this q).
Proof. rewrite <- Q2R_mult. apply Qeq_eqR, this_mult. Qed.
Lemma Q2R_ratio z n : (0 < n)%nat -> Q2R (this (ratio z n)) = IZR z / INR n.
Proof.
  intros Hn. assert (0 < INR n) by (apply lt_0_INR; lia).
  assert (Q2R (this (ratio z n)) * INR n = IZR z) as E.
  { rewrite INR_IZR_INZ. rewrite <- (Q2R_Qc_of_Z (Z.of_nat n)), <- Q2R_Qc_mult, <- Q2R_Qc_of_Z. do 2 f_equal.
    unfold ratio. field. now apply nat_Qc_ne. }
  rewrite <- E. field. lra.
Qed.
Lemma frequency n k : (0 < n)%nat -> centred n k -> exists a, (a < n)%nat /\ kap false n a = k.
Proof.
  intros Hn [C1 C2]. set (a := Z.to_nat (k mod Z.of_nat n)). assert (B := Z.mod_pos_bound k (Z.of_nat n) ltac:(lia)).
  assert (Ha : (a < n)%nat) by (unfold a; lia). exists a. split; [exact Ha|]. cbn [kap].
  destruct (freq_index_spec Numpy n a Ha) as [H1 H2]. cbn [lowest] in H2.
  apply (congr_range (Z.of_nat n) _ _ (- (Z.of_nat n / 2))); try lia.
  - apply Z.mod_divide in H1; [|lia]. destruct H1 as [q Hq]. apply Z.mod_divide; [lia|]. unfold a in Hq. rewrite Z2Nat.id in Hq by lia.
    assert (D := Z.div_mod k (Z.of_nat n) ltac:(lia)). exists (q - k / Z.of_nat n)%Z. fold a in Hq. lia.
Qed.
Lemma coef_parts n g a : (0 < n)%nat ->
  coef n (fun j => (g j, 0)) a = (total n (fun j => g j * cos (2 * PI * (IZR (kap false n a) * INR j / INR n))),
                                  - total n (fun j => g j * sin (2 * PI * (IZR (kap false n a) * INR j / INR n)))).
Proof.
  intros Hn. unfold coef, spectrum. rewrite csum_parts. rewrite <- !rsum_total.
  assert (A : forall j, Q2R (this (- ratio (kap false n a * (0 + Z.of_nat j)) n)%Qc) = - (IZR (kap false n a) * INR j / INR n)).
  { intros j. rewrite Q2R_Qc_opp, Q2R_ratio by assumption. rewrite Z.add_0_l, mult_IZR, <- INR_IZR_INZ. unfold Rdiv. ring. }
  apply pair_eq.
  - apply rsum_ext. intros j Hj. cbn [cmul cexp complex_reals fst snd]. rewrite A.
    replace (2 * PI * - (IZR (kap false n a) * INR j / INR n)) with (- (2 * PI * (IZR (kap false n a) * INR j / INR n))) by ring.
    rewrite cos_neg. ring.
  - transitivity (rsum n (fun j => -1 * (g j * sin (2 * PI * (IZR (kap false n a) * INR j / INR n))))).
    + apply rsum_ext. intros j Hj. cbn [cmul cexp complex_reals fst snd]. rewrite A.
      replace (2 * PI * - (IZR (kap false n a) * INR j / INR n)) with (- (2 * PI * (IZR (kap false n a) * INR j / INR n))) by ring.
      rewrite sin_neg. ring.
    + rewrite (rsum_scal n (-1) (fun j => g j * sin (2 * PI * (IZR (kap false n a) * INR j / INR n)))). ring.
Qed.
Lemma contains_coef n g k a : (0 < n)%nat -> contains n g k -> kap false n a = k -> coef n (fun j => (g j, 0)) a <> (0, 0).
Proof. intros Hn H E. rewrite coef_parts, E by assumption. intros [= A B]. destruct H as [H|H]; apply H; [exact A|lra]. Qed.
Lemma half_sum n : (0 < n)%nat -> (Z.of_nat n - 1 = (Z.of_nat n - 1) / 2 + Z.of_nat n / 2)%Z.
Proof.
  intros Hn. assert (A := Z.div_mod (Z.of_nat n) 2 ltac:(lia)). assert (B := Z.div_mod (Z.of_nat n - 1) 2 ltac:(lia)).
  assert (Ma := Z.mod_pos_bound (Z.of_nat n) 2 ltac:(lia)). assert (Mb := Z.mod_pos_bound (Z.of_nat n - 1) 2 ltac:(lia)). lia.
Qed.
Lemma textured_neighbours n g : textured n g -> neighbours n (fun j => (g j, 0)).
Proof.
  intros (k & A & B & C & D). assert (Hn : (0 < n)%nat) by (destruct n; [cbn in *; lia|lia]).
  destruct (frequency n k Hn) as (a & Ha & Ea); [split; lia|]. destruct (frequency n (k + 1) Hn) as (b & Hb & Eb); [split; lia|].
  exists a, b. repeat split; try assumption; [lia| |].
  - now apply (contains_coef n g k).
  - now apply (contains_coef n g (k + 1)).
Qed.
Lemma energy_total n g : energy n (fun j => (g j, 0)) = total n (fun j => g j * g j).
Proof. rewrite <- rsum_total. unfold energy, norm2. cbn [fst snd]. apply rsum_ext. intros i Hi. ring. Qed.

Lemma kernel_line mem S m cval st fixed moving row n g g' s :
  line cval fixed row n g -> line cval moving row n g' -> (forall i, (i < n)%nat -> g' i = g (moved n s i)) ->
  centred n s -> textured n g -> 1 < total n (fun i => g i * g i) ->
  exists st1 st2, set_reference mem cval st fixed false = Ok st1 /\
    execute_alignkernel mem S m cval Translation st1 moving = (st2, Ok (if row then (IZR s, 0) else (0, IZR s))).
Proof.
  intros HL HL' HM HC HT HE. apply textured_neighbours in HT. assert (H2 := neighbours_two _ _ HT). rewrite <- energy_total in HE.
  destruct (fft_line mem cval fixed row n g ltac:(lia) HL) as [E1 _]. destruct (fft_line mem cval moving row n g' ltac:(lia) HL') as [E2 D2].
  exists {| fixedft := Some (Line (map (coef n (fun i => (g i, 0))) (seq 0 n))); movingft := movingft st |}. eexists.
  unfold set_reference. rewrite E1. split; [reflexivity|]. unfold execute_alignkernel. rewrite E2, D2. cbn [fixedft movingft shift1].
  rewrite (determine1_moved mem S m n (fun i => (g i, 0)) (fun i => (g' i, 0)) s HT HE); [|intros j Hj; now rewrite HM|exact HC].
  cbn [bind]. unfold line in HL'. destruct row, HL' as (Hh & Hw & _); rewrite Hh; [reflexivity|].
  destruct (Nat.eqb_spec n 1); [lia|reflexivity].
Qed.

(* ---- two dimensions ---- *)
Lemma coef2_parts r c g a b : (0 < r)%nat -> (0 < c)%nat ->
  let angle i j := 2 * PI * (IZR (kap false r a) * INR i / INR r + IZR (kap false c b) * INR j / INR c) in
  coef2 r c (fun i j => (g i j, 0)) a b = (total2 r c (fun i j => g i j * cos (angle i j)), - total2 r c (fun i j => g i j * sin (angle i j))).
Proof.
  intros Hr Hc angle.
  assert (T : forall f, total2 r c f = rsum r (fun i => rsum c (f i))).
  { intros f. unfold total2. rewrite <- rsum_total. apply rsum_ext. intros i Hi. now rewrite rsum_total. }
  rewrite !T. rewrite !(rsum_swap r c).
  assert (A : forall i j, Q2R (this (- ratio (kap false r a * (0 + Z.of_nat i)) r + - ratio (kap false c b * (0 + Z.of_nat j)) c)%Qc)
     = - (IZR (kap false r a) * INR i / INR r + IZR (kap false c b) * INR j / INR c)).
  { intros i j. rewrite Q2R_Qc_plus, !Q2R_Qc_opp, !Q2R_ratio by assumption. rewrite !Z.add_0_l, !mult_IZR, <- !INR_IZR_INZ. unfold Rdiv. ring. }
  transitivity (sum c (fun j => sum r (fun i => cmul K (g i j, 0)
     (e (- ratio (kap false r a * (0 + Z.of_nat i)) r + - ratio (kap false c b * (0 + Z.of_nat j)) c)%Qc)))).
  { unfold coef2, coef, spectrum. apply (csum_ext (K := K)). intros j Hj. rewrite <- (csum_mul_r L). apply (csum_ext (K := K)). intros i Hi.
    rewrite cx_exp_add. cxring. }
  rewrite csum_parts. apply pair_eq.
  - apply rsum_ext. intros j Hj. rewrite csum_parts. cbn [fst]. apply rsum_ext. intros i Hi. cbn [cmul cexp complex_reals fst snd]. rewrite A.
    replace (2 * PI * - (IZR (kap false r a) * INR i / INR r + IZR (kap false c b) * INR j / INR c)) with (- angle i j) by (unfold angle; ring).
    rewrite cos_neg. ring.
  - transitivity (rsum c (fun j => -1 * rsum r (fun i => g i j * sin (angle i j)))).
    + apply rsum_ext. intros j Hj. rewrite csum_parts. cbn [snd]. rewrite <- rsum_scal. apply rsum_ext. intros i Hi.
      cbn [cmul cexp complex_reals fst snd]. rewrite A.
      replace (2 * PI * - (IZR (kap false r a) * INR i / INR r + IZR (kap false c b) * INR j / INR c)) with (- angle i j) by (unfold angle; ring).
      rewrite sin_neg. ring.
    + rewrite (rsum_scal c (-1) (fun j => rsum r (fun i => g i j * sin (angle i j)))). ring.
Qed.
Lemma contains2_coef r c g k l a b : (0 < r)%nat -> (0 < c)%nat -> contains2 r c g k l -> kap false r a = k -> kap false c b = l ->
  coef2 r c (fun i j => (g i j, 0)) a b <> (0, 0).
Proof.
  intros Hr Hc H Ea Eb. rewrite coef2_parts by assumption. rewrite Ea, Eb. intros [= A B]. destruct H as [H|H]; apply H; [exact A|lra].
Qed.
Lemma centred_pos n k : centred n k -> (0 < n)%nat.
Proof. intros [A B]. destruct n; [cbn in *; lia|lia]. Qed.
Lemma textured2_neighbours r c g : textured2 r c g -> neighbours2 r c (fun i j => (g i j, 0)).
Proof.
  intros [(k & l & Ck & Ck' & Cl & N1 & N2) (k' & l' & Dk & Dl & Dl' & N3 & N4)].
  assert (Hr := centred_pos r k Ck). assert (Hc := centred_pos c l Cl). split.
  - destruct (frequency r k Hr Ck) as (a & Ha & Ea). destruct (frequency r (k + 1) Hr Ck') as (b & Hb & Eb). destruct (frequency c l Hc Cl) as (q & Hq & Eq).
    exists a, b, q. repeat split; try assumption; [lia| |].
    + now apply (contains2_coef r c g k l).
    + now apply (contains2_coef r c g (k + 1) l).
  - destruct (frequency r k' Hr Dk) as (q & Hq & Eq). destruct (frequency c l' Hc Dl) as (a & Ha & Ea). destruct (frequency c (l' + 1) Hc Dl') as (b & Hb & Eb).
    exists q, a, b. repeat split; try assumption; [lia| |].
    + now apply (contains2_coef r c g k' l').
    + now apply (contains2_coef r c g k' (l' + 1)).
Qed.
Lemma energy2_total r c g : energy2 r c (fun i j => (g i j, 0)) = total2 r c (fun i j => g i j * g i j).
Proof.
  unfold total2. rewrite <- rsum_total. unfold energy2, norm2. cbn [fst snd]. apply rsum_ext. intros i Hi. rewrite <- rsum_total.
  apply rsum_ext. intros j Hj. ring.
Qed.
Lemma kernel_plane mem S m cval st fixed moving r c g g' sy sx :
  height fixed = r -> width fixed = c -> height moving = r -> width moving = c -> pixels cval fixed g -> pixels cval moving g' ->
  (forall i j, (i < r)%nat -> (j < c)%nat -> g' i j = g (moved r sy i) (moved c sx j)) ->
  centred r sy -> centred c sx -> textured2 r c g -> 1 < total2 r c (fun i j => g i j * g i j) ->
  exists st1 st2, set_reference mem cval st fixed false = Ok st1 /\
    execute_alignkernel mem S m cval Translation st1 moving = (st2, Ok (IZR sx, IZR sy)).
Proof.
  intros Hh Hw Hh' Hw' P P' HM Cy Cx HT HE. apply textured2_neighbours in HT. destruct (neighbours2_two _ _ _ HT) as [H1 H2]. rewrite <- energy2_total in HE.
  destruct (fft_plane mem cval fixed r c g H1 H2 Hh Hw P) as (_ & F & EF & SF & VF).
  destruct (fft_plane mem cval moving r c g' H1 H2 Hh' Hw' P') as (D2 & F' & EF' & SF' & VF').
  exists {| fixedft := Some (Plane F); movingft := movingft st |}. eexists.
  unfold set_reference. rewrite EF. split; [reflexivity|]. unfold execute_alignkernel. rewrite EF', D2. cbn [fixedft movingft shift2].
  rewrite (determine2_moved mem S m r c (fun i j => (g i j, 0)) (fun i j => (g' i j, 0)) F F' sy sx HT HE); try assumption; [reflexivity|].
  intros i j Hi Hj. now rewrite HM.
Qed.
