From Verif Require Import BaseProofs QcTac NumpyModel FtModel FtSpec FtProofs FtDftProofs FtComplexProofs AlignfftModel AlignfftSpec AlignfftProofs AlignfftPeak AlignfftLine AlignfftPlane.
From Coq Require Import Reals Qreals Lra Lia.
Local Open Scope R_scope.
Local Notation K := complex_reals.
Local Notation L := cx_laws.
Local Notation e := (cexp complex_reals).
Local Notation sum := (csum complex_reals).

(* ---- maxima and centroids on a grid ---- *)
Lemma flat_length d : length (flat d) = (rows_of d * cols_of d)%nat.
Proof. unfold flat. now rewrite map_length, seq_length. Qed.
Lemma flat_nth d k : (k < rows_of d * cols_of d)%nat -> nth k (flat d) 0 = at_ d (k / cols_of d) (k mod cols_of d).
Proof. intros H. unfold flat. exact (nth_map_seq' (fun k => at_ d (k / cols_of d) (k mod cols_of d)) _ k 0 H). Qed.
Lemma fmax2_at d y x : (y < rows_of d)%nat -> (x < cols_of d)%nat ->
  (forall i j, (i < rows_of d)%nat -> (j < cols_of d)%nat -> (i, j) <> (y, x) -> at_ d i j < at_ d y x) ->
  fmax2 d = Ok (y, x, at_ d y x).
Proof.
  intros Hy Hx H. set (c := cols_of d) in *. assert (Hk : (y * c + x < rows_of d * c)%nat) by nia.
  assert (E1 : ((y * c + x) / c = y)%nat) by (rewrite Nat.div_add_l, Nat.div_small by lia; lia).
  assert (E2 : ((y * c + x) mod c = x)%nat) by (rewrite Nat.add_comm, Nat.mod_add, Nat.mod_small by lia; reflexivity).
  assert (V : nth (y * c + x) (flat d) 0 = at_ d y x) by (rewrite flat_nth by exact Hk; fold c; now rewrite E1, E2).
  assert (Hne : forall j, (j < rows_of d * c)%nat -> j <> (y * c + x)%nat -> nth j (flat d) 0 < at_ d y x).
  { intros j Hj N. rewrite flat_nth by exact Hj. fold c. apply H.
    - apply Nat.div_lt_upper_bound; lia.
    - apply Nat.mod_upper_bound. lia.
    - intros [= A B]. apply N. assert (D := Nat.div_mod j c ltac:(lia)). rewrite A, B in D. lia. }
  unfold fmax2. rewrite (greatest_at (flat d) (y * c + x)).
  - cbn [bind]. fold c. rewrite E1, E2, V. reflexivity.
  - rewrite flat_length. exact Hk.
  - intros j Hj. rewrite V. apply Hne; lia.
  - intros j Hj. rewrite flat_length in Hj. rewrite V. destruct (Nat.eq_dec j (y * c + x)) as [->|N]; [rewrite V; lra|]. left. now apply Hne.
Qed.
Lemma widen2_bound fuel d t y x : forall off, (off <= y)%nat -> (off <= x)%nat -> (y + off < rows_of d)%nat -> (x + off < cols_of d)%nat ->
  let o := widen2 fuel d t y x off in (o <= y)%nat /\ (o <= x)%nat /\ (y + o < rows_of d)%nat /\ (x + o < cols_of d)%nat.
Proof.
  induction fuel as [|fuel IH]; intros off H1 H2 H3 H4; [cbn; auto|]. cbn [widen2].
  destruct (existsb _ _); [cbn; auto|].
  destruct ((y <? S off)%nat || (x <? S off)%nat || (rows_of d <=? y + S off)%nat || (cols_of d <=? x + S off)%nat)%bool eqn:E; [cbn; auto|].
  apply Bool.orb_false_iff in E as [E E4]. apply Bool.orb_false_iff in E as [E E3]. apply Bool.orb_false_iff in E as [E1 E2].
  apply Nat.ltb_ge in E1, E2. apply Nat.leb_gt in E3, E4. apply IH; lia.
Qed.
Lemma rsum2_rev r c (f : nat -> nat -> R) : rsum r (fun i => rsum c (f i)) = rsum r (fun i => rsum c (fun j => f (r - 1 - i)%nat (c - 1 - j)%nat)).
Proof. rewrite (rsum_rev r). apply rsum_ext. intros i Hi. now rewrite (rsum_rev c). Qed.
Lemma rsum2_scal r c a f : rsum r (fun i => rsum c (fun j => a * f i j)) = a * rsum r (fun i => rsum c (fun j => f i j)).
Proof. rewrite <- rsum_scal. apply rsum_ext. intros i Hi. apply rsum_scal. Qed.
Lemma rsum2_add r c f g : rsum r (fun i => rsum c (fun j => f i j + g i j)) = rsum r (fun i => rsum c (fun j => f i j)) + rsum r (fun i => rsum c (fun j => g i j)).
Proof. rewrite <- rsum_add. apply rsum_ext. intros i Hi. apply rsum_add. Qed.
Lemma rsum2_ext r c f g : (forall i j, (i < r)%nat -> (j < c)%nat -> f i j = g i j) -> rsum r (fun i => rsum c (fun j => f i j)) = rsum r (fun i => rsum c (fun j => g i j)).
Proof. intros H. apply rsum_ext. intros i Hi. apply rsum_ext. intros j Hj. now apply H. Qed.
Lemma rsum2_mirror r c (f p : nat -> nat -> R) m : (forall i j, (i < r)%nat -> (j < c)%nat -> f (r - 1 - i)%nat (c - 1 - j)%nat = f i j) ->
  (forall i j, (i < r)%nat -> (j < c)%nat -> p (r - 1 - i)%nat (c - 1 - j)%nat = 2 * m - p i j) ->
  rsum r (fun i => rsum c (fun j => p i j * f i j)) = m * rsum r (fun i => rsum c (fun j => f i j)).
Proof.
  intros H G. set (T := rsum r (fun i => rsum c (fun j => p i j * f i j))).
  assert (T = 2 * m * rsum r (fun i => rsum c (fun j => f i j)) - T) as E; [|lra].
  unfold T at 1. rewrite (rsum2_rev r c (fun i j => p i j * f i j)).
  rewrite (rsum2_ext r c _ (fun i j => 2 * m * f i j + -1 * (p i j * f i j))).
  - rewrite rsum2_add, (rsum2_scal r c (2 * m) f), (rsum2_scal r c (-1) (fun i j => p i j * f i j)). unfold T. ring.
  - intros i j Hi Hj. rewrite H, G by assumption. ring.
Qed.
Lemma fcentroid2_symmetric d y x m : fmax2 d = Ok (y, x, m) -> (y < rows_of d)%nat -> (x < cols_of d)%nat ->
  (forall i j, (i < rows_of d)%nat -> (j < cols_of d)%nat -> 0 < at_ d i j) ->
  (forall i j i' j', (i + i' = y + y)%nat -> (j + j' = x + x)%nat -> (i < rows_of d)%nat -> (i' < rows_of d)%nat -> (j < cols_of d)%nat -> (j' < cols_of d)%nat ->
     at_ d i j = at_ d i' j') ->
  fcentroid2 d = Ok (INR y, INR x).
Proof.
  intros G Hy Hx Hp Hs. unfold fcentroid2. rewrite G. cbn [bind].
  destruct (widen2_bound (rows_of d) d (9 / 10 * m) y x 0) as (H1 & H2 & H3 & H4); try lia.
  set (o := widen2 (rows_of d) d (9 / 10 * m) y x 0) in *. destruct (Nat.eqb_spec o 0); [reflexivity|].
  unfold centroid2, square. cbn [rows_of cols_of at_]. set (N := (o + o + 1)%nat). set (f := fun i j => at_ d (y - o + i) (x - o + j)).
  assert (P : 0 < rsum N (fun i => rsum N (f i))).
  { apply rsum_positive; [unfold N; lia|]. intros i Hi. apply rsum_positive; [unfold N; lia|]. intros j Hj. unfold f, N in *. apply Hp; lia. }
  assert (F : forall i j, (i < N)%nat -> (j < N)%nat -> f (N - 1 - i)%nat (N - 1 - j)%nat = f i j).
  { intros i j Hi Hj. unfold f, N in *. apply Hs; lia. }
  assert (HN : INR (N - 1) = 2 * INR o) by (replace (N - 1)%nat with (o + o)%nat by (unfold N; lia); rewrite plus_INR; ring).
  change (Ok (INR y + rsum N (fun i => rsum N (fun j => INR j * f i j)) / rsum N (fun i => rsum N (f i)) - INR o,
    INR x + rsum N (fun i => rsum N (fun j => INR i * f i j)) / rsum N (fun i => rsum N (f i)) - INR o) = Ok (INR y, INR x)).
  rewrite (rsum2_mirror N N f (fun _ j => INR j) (INR o)), (rsum2_mirror N N f (fun i _ => INR i) (INR o)); try assumption.
  - change (rsum N (fun i => rsum N (fun j => f i j))) with (rsum N (fun i => rsum N (f i))). f_equal. apply pair_eq; field; lra.
  - intros i j Hi Hj. rewrite minus_INR by lia. rewrite HN. ring.
  - intros i j Hi Hj. rewrite minus_INR by lia. rewrite HN. ring.
Qed.

(* ---- two dimensions ---- *)
Lemma neighbours2_two r c f : neighbours2 r c f -> (2 <= r)%nat /\ (2 <= c)%nat.
Proof.
  intros [(a & b & l & Ha & Hb & _ & E & _) (k & a' & b' & _ & Ha' & Hb' & E' & _)]. split.
  - destruct (Nat.eq_dec a b) as [->|N]; lia.
  - destruct (Nat.eq_dec a' b') as [->|N]; lia.
Qed.
Lemma coarse_index n s : (0 < n)%nat -> exists i, (i < n)%nat /\ ((Z.of_nat i - s) mod Z.of_nat n = 0)%Z.
Proof.
  intros Hn. exists (Z.to_nat (s mod Z.of_nat n)). assert (B := Z.mod_pos_bound s (Z.of_nat n) ltac:(lia)). split; [lia|].
  rewrite Z2Nat.id by lia. rewrite Zminus_mod_idemp_l, Z.sub_diag. apply Z.mod_0_l. lia.
Qed.
Lemma coarse_unique n s i j : (i < n)%nat -> (j < n)%nat -> ((Z.of_nat i - s) mod Z.of_nat n = 0)%Z -> ((Z.of_nat j - s) mod Z.of_nat n = 0)%Z -> i = j.
Proof.
  intros Hi Hj Mi Mj. apply Z.mod_divide in Mi; [|lia]. apply Z.mod_divide in Mj; [|lia]. destruct Mi as [q Hq], Mj as [q' Hq'].
  assert (Z.of_nat j - Z.of_nat i = (q' - q) * Z.of_nat n)%Z by lia. assert (q' - q = 0)%Z by nia. nia.
Qed.
Lemma not_multiple n t : (0 < n)%nat -> (t mod Z.of_nat n <> 0)%Z -> forall z, Qc_of_Z t <> (Qc_of_Z z * Qc_of_Z (Z.of_nat n))%Qc.
Proof.
  intros Hn Ht z E. rewrite <- Qc_of_Z_mult in E. apply Qc_of_Z_inj in E. apply Ht. rewrite E. apply Z.mod_mul. lia.
Qed.
Lemma not_multiple_fine n S t : (0 < n)%nat -> (0 < S)%Z -> (0 < Z.abs t < Z.of_nat n * S)%Z ->
  forall z, (Qc_of_Z t / Qc_of_Z S)%Qc <> (Qc_of_Z z * Qc_of_Z (Z.of_nat n))%Qc.
Proof.
  intros Hn HS Ht z E. assert (Qc_of_Z S <> 0%Qc) as NS by (apply Qc_pos_ne, Qc_of_Z_pos; lia).
  assert (Qc_of_Z t = Qc_of_Z (z * Z.of_nat n * S)) as E'.
  { rewrite !Qc_of_Z_mult. transitivity (Qc_of_Z t / Qc_of_Z S * Qc_of_Z S)%Qc; [field; assumption|]. now rewrite E. }
  apply Qc_of_Z_inj in E'. rewrite E' in Ht. rewrite !Z.abs_mul in Ht. rewrite (Z.abs_eq (Z.of_nat n)), (Z.abs_eq S) in Ht by lia.
  assert (z <> 0)%Z by (intros ->; cbn in Ht; lia). assert (1 <= Z.abs z)%Z by lia. nia.
Qed.
Lemma centre2 S : (1 < S)%Z -> (0 <= snd (fft_freqind (3 * S) Numpy) < 2 * S)%Z /\ (3 * S - 1 - snd (fft_freqind (3 * S) Numpy) < 2 * S)%Z /\ (snd (fft_freqind (3 * S) Numpy) < 3 * S)%Z.
Proof.
  intros H. cbn [fft_freqind snd]. assert (D := Z.div_mod (3 * S + 1) 2 ltac:(lia)). assert (M := Z.mod_pos_bound (3 * S + 1) 2 ltac:(lia)). lia.
Qed.

Lemma rows_shp (a : arr cx) r c : @shp cx a = [r; c] -> rows K a = r.
Proof. intros H. unfold rows. change (@shp (cnum K) a) with (@shp cx a). now rewrite H. Qed.
Lemma cols_shp (a : arr cx) r c : @shp cx a = [r; c] -> cols K a = c.
Proof. intros H. unfold cols. change (@shp (cnum K) a) with (@shp cx a). now rewrite H. Qed.
Lemma determine2_moved mem S m r c f f' F F' sy sx : neighbours2 r c f -> 1 < energy2 r c f ->
  (forall i j, (i < r)%nat -> (j < c)%nat -> f' i j = f (moved r sy i) (moved c sx j)) -> centred r sy -> centred c sx ->
  @shp cx F = [r; c] -> (forall i j, (i < r)%nat -> (j < c)%nat -> elt F [i; j] = coef2 r c f i j) ->
  @shp cx F' = [r; c] -> (forall i j, (i < r)%nat -> (j < c)%nat -> elt F' [i; j] = coef2 r c f' i j) ->
  determine_shift2 mem S m F' F = Ok (IZR sy, IZR sx).
Proof.
  intros N E HM Cy Cx HsF HF HsF' HF'. destruct (neighbours2_two r c f N) as [Hr2 Hc2].
  assert (Hr : (0 < r)%nat) by lia. assert (Hc : (0 < c)%nat) by lia.
  unfold determine_shift2. rewrite (rows_shp F' r c), (cols_shp F' r c), (rows_shp F r c), (cols_shp F r c) by assumption.
  rewrite !Nat.eqb_refl. cbn [negb andb]. fold (product2 r c F' F).
  assert (MP := product2_moved r c f f' F F' sy sx Hr Hc HM HF HF').
  destruct (cc2_coarse mem r c f sy sx _ Hr Hc MP) as (g & Eg & Sg & Vg). rewrite Eg. cbn [bind].
  destruct (coarse_index r sy Hr) as (i & Hi & Mi). destruct (coarse_index c sx Hc) as (j & Hj & Mj).
  assert (G : fmax2 (moduli g) = Ok (i, j, energy2 r c f)).
  { assert (Rg : rows_of (moduli g) = r) by exact (rows_shp g r c Sg).
    assert (Cg : cols_of (moduli g) = c) by exact (cols_shp g r c Sg).
    assert (V : at_ (moduli g) i j = energy2 r c f).
    { cbn [at_ moduli]. rewrite Vg by assumption. apply Z.mod_divide in Mi; [|lia]. destruct Mi as [q ->].
      apply Z.mod_divide in Mj; [|lia]. destruct Mj as [q' ->]. rewrite ftmodulus_big; rewrite corr2_multiple by assumption; [reflexivity|assumption]. }
    rewrite <- V. apply fmax2_at; rewrite ?Rg, ?Cg; try assumption. intros a b Ha Hb Nab. rewrite V. cbn [at_ moduli]. rewrite Vg by assumption.
    apply ftmodulus_lt; [|assumption]. apply corr2_lt; [assumption|].
    destruct (Z.eq_dec ((Z.of_nat a - sy) mod Z.of_nat r) 0) as [Ma|Ma]; [right|left; now apply not_multiple].
    apply not_multiple; [assumption|]. intros Mb. apply Nab. f_equal.
    - now apply (coarse_unique r sy).
    - now apply (coarse_unique c sx). }
  rewrite G. cbn [bind]. rewrite (wrapped_spec r i sy), (wrapped_spec c j sx) by assumption.
  destruct (Z.ltb_spec 1 S) as [HS|HS]; [|reflexivity].
  rewrite (kap_axis mem false c), (kap_axis mem false r). cbn [bind].
  destruct (centre2 S HS) as (K1 & K2 & K3). set (k := snd (fft_freqind (3 * S) Numpy)) in *.
  set (y0 := (- (k - sy * S))%Z). set (x0 := (- (k - sx * S))%Z).
  destruct (cc2_fine mem r c f sy sx (product2 r c F' F) S y0 (y0 + 3 * S - 1) x0 (x0 + 3 * S - 1) _ _ Hr Hc ltac:(lia) ltac:(lia) ltac:(lia) MP
    (kap_axis mem false c _) (kap_axis mem false r _)) as (h & Eh & Sh & Vh).
  rewrite Eh. cbn [bind]. replace (y0 + 3 * S - 1 - y0 + 1)%Z with (3 * S)%Z in * by lia. replace (x0 + 3 * S - 1 - x0 + 1)%Z with (3 * S)%Z in * by lia.
  set (M := Z.to_nat (3 * S)) in *. set (kn := Z.to_nat k). assert (Hk : (kn < M)%nat) by (unfold kn, M; lia).
  assert (Rh : rows_of (moduli h) = M) by exact (rows_shp h M M Sh).
  assert (Ch : cols_of (moduli h) = M) by exact (cols_shp h M M Sh).
  assert (D : forall a b, (a < M)%nat -> (b < M)%nat -> at_ (moduli h) a b =
    ftmodulus (corr2 r c f (Qc_of_Z (Z.of_nat a - Z.of_nat kn) / Qc_of_Z S)%Qc (Qc_of_Z (Z.of_nat b - Z.of_nat kn) / Qc_of_Z S)%Qc)).
  { intros a b Ha Hb. cbn [at_ moduli]. rewrite Vh by assumption. unfold kn. rewrite Z2Nat.id by lia. do 2 f_equal; do 2 f_equal; unfold y0, x0; ring. }
  assert (V : at_ (moduli h) kn kn = energy2 r c f).
  { rewrite D by assumption. rewrite Z.sub_diag. replace (Qc_of_Z 0 / Qc_of_Z S)%Qc with 0%Qc by (unfold Qcdiv; change (Qc_of_Z 0) with 0%Qc; ring).
    rewrite ftmodulus_big; rewrite corr2_0 by assumption; [reflexivity|assumption]. }
  assert (G2 : fmax2 (moduli h) = Ok (kn, kn, energy2 r c f)).
  { rewrite <- V. apply fmax2_at; rewrite ?Rh, ?Ch; try assumption. intros a b Ha Hb Nab. rewrite V, D by assumption.
    apply ftmodulus_lt; [|assumption]. apply corr2_lt; [assumption|]. unfold kn in *.
    destruct (Nat.eq_dec a (Z.to_nat k)) as [->|Na]; [right|left]; (apply not_multiple_fine; [assumption|lia|]); rewrite Z2Nat.id by lia; unfold M in *.
    - assert (b <> Z.to_nat k) by (intros ->; now apply Nab). nia.
    - nia. }
  assert (P : cc_maximum2 m h = Ok (INR kn, INR kn)).
  { unfold cc_maximum2. destruct m; [rewrite G2; reflexivity|].
    apply (fcentroid2_symmetric _ _ _ _ G2); rewrite ?Rh, ?Ch; try assumption.
    - intros a b Ha Hb. apply ftmodulus_pos.
    - intros a b a' b' Ea Eb Ha Ha' Hb Hb'. rewrite !D by assumption. apply ftmodulus_eq. rewrite <- corr2_opp by assumption. do 2 f_equal.
      + replace (Z.of_nat a - Z.of_nat kn)%Z with (- (Z.of_nat a' - Z.of_nat kn))%Z by lia. rewrite Qc_of_Z_opp. unfold Qcdiv. ring.
      + replace (Z.of_nat b - Z.of_nat kn)%Z with (- (Z.of_nat b' - Z.of_nat kn))%Z by lia. rewrite Qc_of_Z_opp. unfold Qcdiv. ring. }
  rewrite P. cbn [bind]. f_equal. assert (0 < IZR S) by (apply IZR_lt; lia).
  rewrite INR_IZR_INZ. unfold kn. rewrite Z2Nat.id by lia. rewrite !minus_IZR, !mult_IZR. pairs; field; lra.
Qed.
