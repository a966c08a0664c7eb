From Verif Require Import BaseProofs QcTac NumpyModel FtModel FtSpec FtProofs FtDftProofs FtComplexProofs AlignfftModel AlignfftSpec AlignfftProofs AlignfftPeak AlignfftLine AlignfftPlane AlignfftImage AlignfftMain.
From Coq Require Import Reals Qreals Lra Lia.
Local Open Scope R_scope.
Local Notation K := complex_reals.
Local Notation L := cx_laws.
Local Notation e := (cexp complex_reals).
Local Notation sum := (csum complex_reals).
Add Ring CxRing4 : cx_ring.

Lemma moved_0 n j : (j < n)%nat -> moved n 0 j = j.
Proof. intros H. unfold moved. rewrite Z.sub_0_r, Z.mod_small, Nat2Z.id by lia. reflexivity. Qed.
(* the fine correlation of a line with itself, when the coarse maximum is at s *)
Definition finedata (n : nat) (f : nat -> cx) (S s : Z) : list R :=
  map ftmodulus (map (fun i => corr n f (Qc_of_Z (s * S - (2 * S - 1) + Z.of_nat i) / Qc_of_Z S)%Qc) (seq 0 (Z.to_nat (4 * S)))).
Definition coarsedata (n : nat) (f : nat -> cx) : list R :=
  map ftmodulus (map (fun i => corr n f (Qc_of_Z (Z.of_nat i))) (seq 0 n)).
Definition position (m : method) (data : list R) : result R :=
  match m with Centroid => fcentroid1 data | Max => let! (i, _) := greatest data in Ok (INR i) end.
Lemma determine1_self mem S m n f i v : (0 < n)%nat -> greatest (coarsedata n f) = Ok (i, v) ->
  determine_shift1 mem S m (map (coef n f) (seq 0 n)) (map (coef n f) (seq 0 n)) =
  if (1 <? S)%Z then let! p := position m (finedata n f S (wrapped n i)) in Ok ((p - IZR (2 * S - 1 - wrapped n i * S)) / IZR S)
  else Ok (IZR (wrapped n i)).
Proof.
  intros Hn G. unfold determine_shift1. rewrite !map_length, !seq_length, Nat.eqb_refl. cbn [negb].
  fold (product (map (coef n f) (seq 0 n)) (map (coef n f) (seq 0 n))).
  rewrite (product_moved n f f 0 Hn) by (intros j Hj; now rewrite moved_0). rewrite cc_coarse by assumption. cbn [bind].
  assert (map ftmodulus (map (fun i => corr n f (Qc_of_Z (Z.of_nat i - 0))) (seq 0 n)) = coarsedata n f) as ->.
  { unfold coarsedata. f_equal. apply map_ext. intros j. now rewrite Z.sub_0_r. }
  rewrite G. cbn [bind]. destruct (Z.ltb_spec 1 S) as [HS|HS]; [|reflexivity].
  rewrite (kap_axis mem false n). cbn [bind]. rewrite centre_size by assumption.
  rewrite (cc_fine mem n f 0 S) by (try assumption; try lia; apply (kap_axis mem false n)). cbn [bind]. unfold cc_maximum1.
  match goal with |- (let! p := match m with Max => let! (i0, _) := greatest ?d in _ | Centroid => _ end in _) = _ => assert (d = finedata n f S (wrapped n i)) as -> end.
  { unfold finedata. f_equal.
    match goal with |- map _ (seq 0 (Z.to_nat ?a)) = map _ (seq 0 (Z.to_nat ?b)) => replace a with b by lia end.
    apply map_ext. intros j.
    replace (- (2 * S - 1 - wrapped n i * S) + Z.of_nat j - 0 * S)%Z with (wrapped n i * S - (2 * S - 1) + Z.of_nat j)%Z by lia. reflexivity. }
  destruct m; reflexivity.
Qed.

(* ---- no texture ---- *)
Lemma constant_greatest (v : R) N : (0 < N)%nat -> greatest (map (fun _ : nat => v) (seq 0 N)) = Ok (0%nat, v).
Proof.
  intros H. destruct N as [|N]; [lia|]. cbn [seq map greatest]. f_equal. apply best_from_keep. cbn [snd]. intros x I.
  apply in_map_iff in I as (_ & <- & _). lra.
Qed.
Lemma constant_centroid (v : R) N : (0 < N)%nat -> fcentroid1 (map (fun _ : nat => v) (seq 0 N)) = Ok 0.
Proof.
  intros H. unfold fcentroid1. rewrite constant_greatest by assumption. cbn [bind]. rewrite map_length, seq_length.
  destruct N as [|N]; [lia|]. cbn [widen1]. destruct (below _ _ && below _ _); reflexivity.
Qed.
Lemma constant_position m (v : R) N : (0 < N)%nat -> position m (map (fun _ : nat => v) (seq 0 N)) = Ok 0.
Proof.
  intros H. destruct m; cbn [position]; [|now apply constant_centroid]. rewrite constant_greatest by assumption. reflexivity.
Qed.
Lemma coef_constant n (x : R) k : (0 < k < n)%nat -> coef n (fun _ => (x, 0)) k = (0, 0).
Proof.
  intros Hk. unfold coef, spectrum. rewrite (csum_mul_l L).
  transitivity (cmul K (x, 0) (0, 0)); [|cbn; apply pair_eq; ring]. f_equal.
  transitivity (czero K); [|reflexivity]. rewrite <- (cx_orth n (- kap false n k)); [|lia|].
  - apply (csum_ext (K := K)). intros j Hj. f_equal. unfold ratio. rewrite Z.add_0_l. rewrite !Qc_of_Z_mult, Qc_of_Z_opp. unfold Qcdiv. ring.
  - destruct (freq_index_spec Numpy n k ltac:(lia)) as [H1 H2]. cbn [kap]. intros H. apply Z.mod_divide in H1; [|lia]. apply Z.mod_divide in H; [|lia].
    destruct H1 as [q Hq], H as [q' Hq']. assert (Z.of_nat k = (- q - q') * Z.of_nat n)%Z as E by (rewrite Z.mul_sub_distr_r; lia).
    assert (- q - q' <= 0 \/ 1 <= - q - q')%Z as [C|C] by lia; nia.
Qed.
Lemma corr_constant n (x : R) t : corr n (fun _ => (x, 0)) t = corr n (fun _ => (x, 0)) 0%Qc.
Proof.
  unfold corr. f_equal. apply (csum_ext (K := K)). intros k Hk. destruct k as [|k].
  - f_equal. f_equal. unfold turns. assert (kap false n 0 = 0%Z) as ->.
    { destruct (freq_index_spec Numpy n 0 ltac:(lia)) as [H1 H2]. cbn [lowest] in H2. cbn [kap]. apply Z.mod_divide in H1; [|lia]. destruct H1 as [q Hq].
      assert (D := Z.div_mod (Z.of_nat n) 2 ltac:(lia)). assert (M := Z.mod_pos_bound (Z.of_nat n) 2 ltac:(lia)).
      assert (q <= -1 \/ q = 0 \/ 1 <= q)%Z as [C|[C|C]] by lia; [nia|subst q; lia|nia]. }
    change (Qc_of_Z 0) with 0%Qc. unfold Qcdiv. ring.
  - rewrite coef_constant by lia. unfold norm2. cbn. apply pair_eq; ring.
Qed.
Lemma determine1_flat mem S m n x : (0 < n)%nat ->
  determine_shift1 mem S m (map (coef n (fun _ => (x, 0))) (seq 0 n)) (map (coef n (fun _ => (x, 0))) (seq 0 n)) =
  Ok (if (1 <? S)%Z then - (2 - / IZR S) else 0).
Proof.
  intros Hn. assert (G : forall N h, map ftmodulus (map (fun i : nat => corr n (fun _ => (x, 0)) (h i)) (seq 0 N)) =
    map (fun _ => ftmodulus (corr n (fun _ => (x, 0)) 0%Qc)) (seq 0 N)).
  { intros N h. rewrite map_map. apply map_ext. intros j. now rewrite corr_constant. }
  rewrite (determine1_self mem S m n _ 0 (ftmodulus (corr n (fun _ => (x, 0)) 0%Qc)) Hn).
  - assert (W : wrapped n 0 = 0%Z).
    { apply wrapped_spec; try assumption; [rewrite Z.mod_0_l; lia|]. split.
      - assert (0 <= Z.of_nat n / 2)%Z by (apply Z.div_pos; lia). lia.
      - apply Z.div_pos; lia. }
    rewrite W. destruct (Z.ltb_spec 1 S) as [HS|HS]; [|reflexivity]. unfold finedata. rewrite G. rewrite constant_position by lia. cbn [bind].
    f_equal. rewrite Z.mul_0_l, Z.sub_0_r. rewrite minus_IZR, mult_IZR. assert (0 < IZR S) by (apply IZR_lt; lia). field. lra.
  - unfold coarsedata. rewrite G. now apply constant_greatest.
Qed.
Lemma kernel_flat mem S m cval st im row n x : (2 <= n)%nat -> (1 < S)%Z -> line cval im row n (fun _ => x) ->
  exists st1 st2, set_reference mem cval st im false = Ok st1 /\
    execute_alignkernel mem S m cval Translation st1 im = (st2, Ok (if row then (- (2 - / IZR S), 0) else (0, - (2 - / IZR S)))).
Proof.
  intros Hn HS HL. destruct (fft_line mem cval im row n _ ltac:(lia) HL) as [E1 D].
  eexists {| fixedft := Some (Line _); movingft := movingft st |}, _. unfold set_reference. rewrite E1. split; [reflexivity|].
  unfold execute_alignkernel. rewrite E1, D. cbn [fixedft movingft shift1].
  rewrite (determine1_flat mem S m n x ltac:(lia)). cbn [bind]. rewrite (proj2 (Z.ltb_lt 1 S)) by assumption.
  unfold line in HL. destruct row, HL as (Hh & Hw & _); rewrite Hh; [reflexivity|].
  destruct (Nat.eqb_spec n 1); [lia|reflexivity].
Qed.

(* ---- a faint point ---- *)
Definition point (x : R) : nat -> cx := fun j => ((if (j =? 0)%nat then x else 0), 0).
Lemma coef_point n x k : (0 < n)%nat -> coef n (point x) k = (x, 0).
Proof.
  intros Hn. unfold coef, spectrum. rewrite (csum_ext (K := K) n _ (fun j => if (j =? 0)%nat then cmul K (x, 0) (e (- ratio (kap false n k * (0 + Z.of_nat j)) n)%Qc) else (0, 0))).
  - change ((0, 0) : cx) with (czero K). rewrite (csum_pick L n 0 (fun j => cmul K (x, 0) (e (- ratio (kap false n k * (0 + Z.of_nat j)) n)%Qc)) Hn).
    replace (- ratio (kap false n k * (0 + Z.of_nat 0)) n)%Qc with (Qc_of_Z 0).
    + transitivity (cmul K (x, 0) (1, 0)); [f_equal; apply cx_exp_int|cbn; apply pair_eq; ring].
    + unfold ratio. rewrite Z.add_0_l, Z.mul_0_r. change (Qc_of_Z 0) with 0%Qc. unfold Qcdiv. ring.
  - intros j Hj. unfold point. destruct (Nat.eqb_spec j 0) as [->|]; [reflexivity|]. cbn. apply pair_eq; ring.
Qed.
Lemma corr_point n x t : (0 < n)%nat -> (t mod Z.of_nat n <> 0)%Z -> corr n (point x) (Qc_of_Z t) = (0, 0).
Proof.
  intros Hn Ht. unfold corr.
  rewrite (csum_ext (K := K) n _ (fun k => cmul K (norm2 (x, 0), 0) (e (ratio (kap false n k * t) n)))).
  - rewrite (csum_mul_l L). rewrite (orth L n (kap false n)) by (assumption || apply kap_residues).
    destruct (Z.eqb_spec (t mod Z.of_nat n) 0); [contradiction|]. cbn. unfold Rdiv. apply pair_eq; ring.
  - intros k Hk. rewrite coef_point by assumption. f_equal. f_equal. unfold turns, ratio. now rewrite Qc_of_Z_mult.
Qed.
Lemma energy_point n x : (0 < n)%nat -> energy n (point x) = x * x.
Proof.
  intros Hn. destruct n as [|n]; [lia|]. clear Hn. induction n as [|n IH].
  - unfold energy, norm2, point. cbn. ring.
  - unfold energy in *. cbn [rsum] in *. rewrite IH. unfold norm2, point. cbn. ring.
Qed.
Lemma ftmodulus_0 : ftmodulus (0, 0) = 1.
Proof.
  unfold ftmodulus. rewrite (modulus_of 0 0 0) by lra. destruct (below_spec 0 (/ 10 ^ 20)) as [H|H]; [reflexivity|].
  exfalso. apply H. apply Rinv_0_lt_compat. apply pow_lt. lra.
Qed.
Lemma kernel_faint mem S m cval st im row n x : (3 <= n)%nat -> (S <= 1)%Z -> / 10 ^ 20 <= x * x -> x * x < 1 ->
  line cval im row n (fun j => if (j =? 0)%nat then x else 0) ->
  exists st1 st2, set_reference mem cval st im false = Ok st1 /\
    execute_alignkernel mem S m cval Translation st1 im = (st2, Ok (if row then (1, 0) else (0, 1))).
Proof.
  intros Hn HS Hx Hx1 HL. destruct (fft_line mem cval im row n _ ltac:(lia) HL) as [E1 D].
  eexists {| fixedft := Some (Line _); movingft := movingft st |}, _. unfold set_reference. rewrite E1. split; [reflexivity|].
  unfold execute_alignkernel. rewrite E1, D. cbn [fixedft movingft shift1]. fold (point x).
  assert (V : forall j, (j < n)%nat -> nth j (coarsedata n (point x)) 0 = ftmodulus (corr n (point x) (Qc_of_Z (Z.of_nat j)))).
  { intros j Hj. unfold coarsedata. now rewrite (nth_moduli (corr n (point x)) (fun j => Qc_of_Z (Z.of_nat j))). }
  assert (V1 : forall j, (0 < j < n)%nat -> nth j (coarsedata n (point x)) 0 = 1).
  { intros j Hj. rewrite V by lia. rewrite corr_point; [apply ftmodulus_0|lia|]. rewrite Z.mod_small; lia. }
  assert (V0 : nth 0 (coarsedata n (point x)) 0 < 1).
  { rewrite V by lia. change (Qc_of_Z (Z.of_nat 0)) with 0%Qc. unfold ftmodulus. rewrite corr_0_modulus, energy_point by lia.
    destruct (below_spec (x * x) (/ 10 ^ 20)); [lra|assumption]. }
  rewrite (determine1_self mem S m n (point x) 1 1); [|lia|].
  - rewrite (proj2 (Z.ltb_ge 1 S)) by assumption. cbn [bind]. assert (wrapped n 1 = 1%Z) as ->.
    { apply wrapped_spec; [lia|lia|rewrite Z.mod_0_l; lia|]. split.
      - assert (0 <= Z.of_nat n / 2)%Z by (apply Z.div_pos; lia). lia.
      - apply Z.div_le_lower_bound; lia. }
    unfold line in HL. destruct row, HL as (Hh & Hw & _); rewrite Hh; [reflexivity|].
    destruct (Nat.eqb_spec n 1); [lia|reflexivity].
  - assert (LN : length (coarsedata n (point x)) = n) by (unfold coarsedata; now rewrite !map_length, seq_length).
    rewrite <- (V1 1%nat ltac:(lia)). apply greatest_at; [lia| |]; rewrite ?LN.
    + intros j Hj. replace j with 0%nat by lia. now rewrite (V1 1%nat ltac:(lia)).
    + intros j Hj. rewrite (V1 1%nat ltac:(lia)). destruct j as [|j]; [lra|]. rewrite V1 by lia. lra.
Qed.

(* ---- the other branches ---- *)
Lemma fft_total mem cval im : (0 < height im)%nat -> (0 < width im)%nat -> exists f, fft_handle_missing mem cval im = Ok f.
Proof.
  intros Hh Hw. unfold fft_handle_missing. fold (filled cval im). destruct (Nat.eqb_spec (height im * width im) 0); [nia|].
  destruct (has_nan (filled cval im)); [now eexists|]. destruct (is1D (filled cval im)).
  - eexists. exact (f_equal (fun r => let! f := r in Ok (Line f))
      (fft_values mem (height im * width im) (fun k => number (pixel (filled cval im) (k / width im) (k mod width im))) ltac:(nia))).
  - destruct (fft2_values mem (height im) (width im) (fun i j => number (pixel (filled cval im) i j))) as (F & EF & _ & _); [lia|lia|].
    rewrite EF. now eexists.
Qed.
Lemma kernel_previous mem S m cval type st im st2 r other : (0 < height im)%nat -> (0 < width im)%nat ->
  execute_alignkernel mem S m cval type st im = (st2, r) ->
  exists st3, set_reference mem cval st2 other true = Ok st3 /\ set_reference mem cval st2 im false = Ok st3.
Proof.
  intros Hh Hw H. destruct (fft_total mem cval im Hh Hw) as [f E]. unfold execute_alignkernel in H. unfold set_reference. rewrite E in *.
  injection H as <- _. eexists. split; reflexivity.
Qed.
Lemma fft_nan mem cval im i j : (i < height im)%nat -> (j < width im)%nat -> pixel im i j = None -> cval <> NotANumber ->
  fft_handle_missing mem cval im = Ok Undefined.
Proof.
  intros Hi Hj P N. unfold fft_handle_missing. fold (filled cval im). destruct (Nat.eqb_spec (height im * width im) 0); [nia|].
  replace (has_nan (filled cval im)) with true; [reflexivity|]. symmetry. unfold has_nan. apply existsb_exists. exists i. split; [apply in_seq; cbn; lia|].
  apply existsb_exists. exists j. split; [apply in_seq; cbn; lia|]. cbn [filled pixel]. rewrite P. destruct cval as [|v]; [congruence|]. cbn [is_missing].
  now destruct (Req_EM_T v 0).
Qed.
Lemma kernel_nan mem S m cval st im i j : (i < height im)%nat -> (j < width im)%nat -> pixel im i j = None -> cval <> NotANumber ->
  fixedft st <> None -> snd (execute_alignkernel mem S m cval Translation st im) = Err ValueError.
Proof.
  intros Hi Hj P N F. unfold execute_alignkernel. rewrite (fft_nan mem cval im i j Hi Hj P N). cbn [snd fixedft movingft]. destruct (fixedft st) as [g|]; [|congruence].
  destruct (is1D im); reflexivity.
Qed.
Lemma kernel_rigid mem S m cval st fixed moving r c g g' type :
  (2 <= r)%nat -> (2 <= c)%nat -> height fixed = r -> width fixed = c -> height moving = r -> width moving = c -> pixels cval fixed g -> pixels cval moving g' ->
  type = Rigid \/ type = Similarity ->
  exists st1 st2, set_reference mem cval st fixed false = Ok st1 /\
    execute_alignkernel mem S m cval type st1 moving = (st2, Ok (-84, -48)).
Proof.
  intros H1 H2 Hh Hw Hh' Hw' P P' T.
  destruct (fft_plane mem cval fixed r c g H1 H2 Hh Hw P) as (_ & F & EF & SF & VF).
  destruct (fft_plane mem cval moving r c g' H1 H2 Hh' Hw' P') as (D2 & F' & EF' & SF' & VF').
  exists {| fixedft := Some (Plane F); movingft := movingft st |}. eexists.
  unfold set_reference. rewrite EF. split; [reflexivity|]. unfold execute_alignkernel. rewrite EF', D2. cbn [fixedft movingft].
  destruct T as [-> | ->]; rewrite (rows_shp F r c SF), (cols_shp F r c SF), (rows_shp F' r c SF'), (cols_shp F' r c SF'), !Nat.eqb_refl; reflexivity.
Qed.
Lemma kernel_errors mem S m cval st im : (0 < height im)%nat -> (0 < width im)%nat ->
  (is1D im = true -> forall type, type <> Translation -> snd (execute_alignkernel mem S m cval type st im) = Err ValueError) /\
  (is1D im = false -> forall type, type = Affine \/ type = Projective -> snd (execute_alignkernel mem S m cval type st im) = Err NotImplementedError) /\
  (fixedft st = None -> snd (execute_alignkernel mem S m cval Translation st im) = Err AttributeError).
Proof.
  intros Hh Hw. destruct (fft_total mem cval im Hh Hw) as [f E]. unfold execute_alignkernel. rewrite E. cbn [snd fixedft movingft]. split; [|split].
  - intros -> type N. destruct type; congruence.
  - intros -> type [-> | ->]; reflexivity.
  - intros ->. destruct (is1D im); cbn [shift1 shift2]; destruct f; reflexivity.
Qed.
