From Verif Require Import BaseProofs QcTac NumpyModel FtModel FtSpec FtProofs FtDftProofs FtComplexProofs AlignfftModel AlignfftSpec AlignfftProofs AlignfftPeak.
From Coq Require Import Reals Qreals Lra Lia.
Local Open Scope R_scope.
Local Notation K := complex_reals.
Local Notation L := cx_laws.
Local Notation e := (cexp complex_reals).
Local Notation sum := (csum complex_reals).

(* ---- centroids of symmetric data ---- *)
Lemma rsum_scal n c f : rsum n (fun i => c * f i) = c * rsum n f.
Proof. induction n as [|n IH]; cbn [rsum]; [ring|]. rewrite IH. ring. Qed.
Lemma rsum_add n f g : rsum n (fun i => f i + g i) = rsum n f + rsum n g.
Proof. induction n as [|n IH]; cbn [rsum]; [ring|]. rewrite IH. ring. Qed.
Lemma rsum_first n f : rsum (S n) f = f 0%nat + rsum n (fun i => f (S i)).
Proof. induction n as [|n IH]; [cbn; ring|]. change (rsum (S (S n)) f) with (rsum (S n) f + f (S n)). rewrite IH. cbn [rsum]. ring. Qed.
Lemma rsum_rev n f : rsum n f = rsum n (fun i => f (n - 1 - i)%nat).
Proof.
  induction n as [|n IH]; [reflexivity|]. rewrite (rsum_first n (fun i => f (S n - 1 - i)%nat)). cbn [rsum]. rewrite IH.
  replace (S n - 1 - 0)%nat with n by lia. rewrite Rplus_comm. f_equal. apply rsum_ext. intros i Hi. f_equal. lia.
Qed.
Lemma rsum_positive n f : (0 < n)%nat -> (forall i, (i < n)%nat -> 0 < f i) -> 0 < rsum n f.
Proof.
  intros Hn H. destruct n as [|n]; [lia|]. clear Hn. induction n as [|n IH]; [cbn; specialize (H 0%nat ltac:(lia)); lra|].
  change (rsum (S (S n)) f) with (rsum (S n) f + f (S n)). assert (0 < rsum (S n) f) by (apply IH; intros; apply H; lia).
  specialize (H (S n) ltac:(lia)). lra.
Qed.
Lemma rsum_mirror n f : (forall i, (i < n)%nat -> f (n - 1 - i)%nat = f i) ->
  rsum n (fun i => INR i * f i) = INR (n - 1) / 2 * rsum n f.
Proof.
  intros H. assert (rsum n (fun i => INR i * f i) = rsum n (fun i => INR (n - 1) * f i) - rsum n (fun i => INR i * f i)) as E.
  { rewrite (rsum_rev n) at 1. transitivity (rsum n (fun i => INR (n - 1) * f i + -1 * (INR i * f i))).
    - apply rsum_ext. intros i Hi. rewrite H by assumption. rewrite minus_INR by lia. ring.
    - rewrite rsum_add, (rsum_scal n (-1) (fun i => INR i * f i)). ring. }
  rewrite rsum_scal in E. lra.
Qed.
Lemma widen1_sym fuel l t k : forall j, (j <= k)%nat -> (k + j < length l)%nat ->
  exists j', (j' <= k)%nat /\ (k + j' < length l)%nat /\ widen1 fuel l t (k - j) (k + j) = (k - j', k + j')%nat.
Proof.
  induction fuel as [|fuel IH]; intros j Hj Hl; [exists j; auto|]. cbn [widen1].
  destruct (below t (nth (k - j) l 0) && below t (nth (k + j) l 0))%bool; [|exists j; auto].
  destruct (k - j)%nat as [|a] eqn:E; [exists j; rewrite E; auto|].
  destruct (Nat.leb_spec (length l) (S (k + j))) as [Q|Q]; [exists j; rewrite E; auto|].
  destruct (IH (S j)) as (j' & H1 & H2 & H3); [lia|lia|]. exists j'. split; [exact H1|]. split; [exact H2|].
  replace a with (k - S j)%nat by lia. replace (S (k + j)) with (k + S j)%nat by lia. exact H3.
Qed.
Lemma fcentroid1_symmetric l k m : greatest l = Ok (k, m) -> (k < length l)%nat -> (forall i, (i < length l)%nat -> 0 < nth i l 0) ->
  (forall j, (j <= k)%nat -> (k + j < length l)%nat -> nth (k - j) l 0 = nth (k + j) l 0) -> fcentroid1 l = Ok (INR k).
Proof.
  intros G Hk Hp Hs. unfold fcentroid1. rewrite G. cbn [bind].
  destruct (widen1_sym (length l) l (9 / 10 * m) k 0) as (j & H1 & H2 & E); [lia|lia|].
  rewrite Nat.sub_0_r, Nat.add_0_r in E. rewrite E. destruct (Nat.eqb_spec (k - j) (k + j)) as [Q|Q]; [reflexivity|].
  f_equal. unfold centroid1. set (N := (S (k + j) - (k - j))%nat). set (f := fun i => nth (k - j + i) l 0).
  change (rsum N (fun i => INR i * f i) / rsum N f + INR (k - j) = INR k). rewrite rsum_mirror.
  - assert (0 < rsum N f) as P.
    { apply rsum_positive; [unfold N; lia|]. intros i Hi. apply Hp. unfold N in Hi. lia. }
    replace (INR k) with (INR j + INR (k - j)) by (rewrite <- plus_INR; f_equal; lia).
    replace (INR (N - 1)) with (2 * INR j).
    + field. lra.
    + replace (N - 1)%nat with (j + j)%nat by (unfold N; lia). rewrite plus_INR. ring.
  - intros i Hi. unfold f, N in *. destruct (Nat.leb_spec i j) as [C|C].
    + replace (k - j + (S (k + j) - (k - j) - 1 - i))%nat with (k + (j - i))%nat by lia.
      replace (k - j + i)%nat with (k - (j - i))%nat by lia. symmetry. apply Hs; lia.
    + replace (k - j + (S (k + j) - (k - j) - 1 - i))%nat with (k - (i - j))%nat by lia.
      replace (k - j + i)%nat with (k + (i - j))%nat by lia. apply Hs; lia.
Qed.

(* ---- the correlation on the grids ---- *)
Lemma Qc_of_Z_inj a b : Qc_of_Z a = Qc_of_Z b -> a = b.
Proof.
  intros H. destruct (Z.lt_trichotomy a b) as [C|[C|C]]; [|assumption|]; exfalso; apply Qc_of_Z_lt in C; rewrite H in C; exact (Qclt_not_eq _ _ C eq_refl).
Qed.
Lemma neighbours_two n f : neighbours n f -> (2 <= n)%nat.
Proof.
  intros (a & b & Ha & Hb & E & _). destruct (Nat.eq_dec a b) as [->|N]; [|lia]. exfalso. lia.
Qed.
Lemma corr_multiple n f z : (0 < n)%nat -> modulus (corr n f (Qc_of_Z (z * Z.of_nat n))) = energy n f.
Proof.
  intros Hn. rewrite <- corr_0_modulus by assumption. f_equal. unfold corr. f_equal. apply (csum_ext (K := K)). intros k Hk. f_equal.
  transitivity (e (Qc_of_Z (kap false n k * z))).
  - f_equal. unfold turns. rewrite !Qc_of_Z_mult. field. now apply nat_Qc_ne.
  - rewrite cx_exp_int. replace (turns n k 0) with (Qc_of_Z 0); [now rewrite cx_exp_int|].
    unfold turns. change (Qc_of_Z 0) with 0%Qc. unfold Qcdiv. ring.
Qed.
Lemma corr_coarse_lt n f t : (0 < n)%nat -> neighbours n f -> (t mod Z.of_nat n <> 0)%Z -> modulus (corr n f (Qc_of_Z t)) < energy n f.
Proof.
  intros Hn N Ht. apply corr_lt; try assumption. intros z E. rewrite <- Qc_of_Z_mult in E. apply Qc_of_Z_inj in E. apply Ht. rewrite E.
  apply Z.mod_mul. lia.
Qed.
Lemma corr_fine_lt n f S t : (0 < n)%nat -> neighbours n f -> (0 < S)%Z -> (0 < Z.abs t < Z.of_nat n * S)%Z ->
  modulus (corr n f (Qc_of_Z t / Qc_of_Z S)%Qc) < energy n f.
Proof.
  intros Hn N HS Ht. apply corr_lt; try assumption. intros z E.
  assert (Qc_of_Z S <> 0%Qc) as NS by (apply Qc_pos_ne, Qc_of_Z_pos; lia).
  assert (Qc_of_Z t = Qc_of_Z (z * Z.of_nat n * S)) as E'.
  { rewrite !Qc_of_Z_mult. transitivity (Qc_of_Z t / Qc_of_Z S * Qc_of_Z S)%Qc; [field; assumption|]. now rewrite E. }
  apply Qc_of_Z_inj in E'. rewrite E' in Ht. rewrite !Z.abs_mul in Ht. rewrite (Z.abs_eq (Z.of_nat n)), (Z.abs_eq S) in Ht by lia.
  assert (z <> 0)%Z by (intros ->; cbn in Ht; lia). assert (1 <= Z.abs z)%Z by lia. nia.
Qed.
Lemma nth_moduli {A} (g : A -> cx) (h : nat -> A) N i : (i < N)%nat -> nth i (map ftmodulus (map (fun j => g (h j)) (seq 0 N))) 0 = ftmodulus (g (h i)).
Proof. intros H. rewrite map_map. exact (nth_map_seq' (fun j => ftmodulus (g (h j))) N i 0 H). Qed.
Lemma wrapped_spec n i s : (0 < n)%nat -> (i < n)%nat -> ((Z.of_nat i - s) mod Z.of_nat n = 0)%Z -> centred n s -> wrapped n i = s.
Proof.
  intros Hn Hi Hm [C1 C2]. unfold wrapped. cbn [fft_freqind snd]. replace ((Z.of_nat n + 1) / 2 - 1)%Z with ((Z.of_nat n - 1) / 2)%Z.
  2:{ replace (Z.of_nat n + 1)%Z with (Z.of_nat n - 1 + 1 * 2)%Z by lia. rewrite Z.div_add by lia. lia. }
  assert (E : (Z.of_nat n - 1 = (Z.of_nat n - 1) / 2 + Z.of_nat n / 2)%Z).
  { assert (A := Z.div_mod (Z.of_nat n) 2 ltac:(lia)). assert (B := Z.div_mod (Z.of_nat n - 1) 2 ltac:(lia)).
    assert (Ma := Z.mod_pos_bound (Z.of_nat n) 2 ltac:(lia)). assert (Mb := Z.mod_pos_bound (Z.of_nat n - 1) 2 ltac:(lia)).
    assert (M : ((Z.of_nat n - 1) mod 2 = (Z.of_nat n + 1) mod 2)%Z).
    { replace (Z.of_nat n + 1)%Z with (Z.of_nat n - 1 + 1 * 2)%Z by lia. now rewrite Z.mod_add by lia. }
    assert (N : ((Z.of_nat n + 1) mod 2 = (Z.of_nat n mod 2 + 1) mod 2)%Z) by now rewrite Zplus_mod_idemp_l.
    assert (Z.of_nat n mod 2 = 0 \/ Z.of_nat n mod 2 = 1)%Z as [R|R] by lia; rewrite R in N; cbn in N; lia. }
  apply Z.mod_divide in Hm; [|lia]. destruct Hm as [q Hq].
  destruct (Z.ltb_spec ((Z.of_nat n - 1) / 2) (Z.of_nat i)) as [Q|Q].
  - assert (q = 1)%Z; [|lia]. assert (0 < q)%Z by nia. assert (q < 2)%Z by nia. lia.
  - assert (q = 0)%Z; [|lia]. assert (-1 < q)%Z by nia. assert (q < 1)%Z by nia. lia.
Qed.
Lemma centre_size S : (1 < S)%Z -> snd (fft_freqind (4 * S) Numpy) = (2 * S - 1)%Z.
Proof. intros H. cbn [fft_freqind snd]. replace (4 * S + 1)%Z with (1 + (2 * S) * 2)%Z by lia. rewrite Z.div_add by lia. cbn. lia. Qed.

Lemma determine1_moved mem S m n f f' s : neighbours n f -> 1 < energy n f ->
  (forall j, (j < n)%nat -> f' j = f (moved n s j)) -> centred n s ->
  determine_shift1 mem S m (map (coef n f') (seq 0 n)) (map (coef n f) (seq 0 n)) = Ok (IZR s).
Proof.
  intros N E HM HC. assert (Hn2 := neighbours_two n f N). assert (Hn : (0 < n)%nat) by lia.
  unfold determine_shift1. rewrite !map_length, !seq_length, Nat.eqb_refl. cbn [negb].
  fold (product (map (coef n f') (seq 0 n)) (map (coef n f) (seq 0 n))).
  rewrite (product_moved n f f' s Hn HM). rewrite cc_coarse by assumption. cbn [bind].
  set (i := Z.to_nat (s mod Z.of_nat n)). assert (B := Z.mod_pos_bound s (Z.of_nat n) ltac:(lia)).
  assert (Hi : (i < n)%nat) by (unfold i; lia).
  assert (Mi : ((Z.of_nat i - s) mod Z.of_nat n = 0)%Z).
  { unfold i. rewrite Z2Nat.id by lia. rewrite Zminus_mod_idemp_l, Z.sub_diag. apply Z.mod_0_l. lia. }
  assert (G : greatest (map ftmodulus (map (fun i => corr n f (Qc_of_Z (Z.of_nat i - s))) (seq 0 n))) = Ok (i, energy n f)).
  { assert (V : nth i (map ftmodulus (map (fun i => corr n f (Qc_of_Z (Z.of_nat i - s))) (seq 0 n))) 0 = energy n f).
    { rewrite (nth_moduli (corr n f) (fun j => Qc_of_Z (Z.of_nat j - s))) by assumption. apply Z.mod_divide in Mi; [|lia]. destruct Mi as [q ->].
      rewrite ftmodulus_big; rewrite corr_multiple by assumption; [reflexivity|assumption]. }
    rewrite <- V. apply greatest_at; rewrite ?map_length, ?seq_length; [assumption| |]; intros j Hj; rewrite V;
      rewrite (nth_moduli (corr n f) (fun j => Qc_of_Z (Z.of_nat j - s))) by lia.
    - apply ftmodulus_lt; [|assumption]. apply corr_coarse_lt; try assumption. intros Mj.
      apply Z.mod_divide in Mi; [|lia]. apply Z.mod_divide in Mj; [|lia]. destruct Mi as [q Hq], Mj as [q' Hq'].
      assert (Z.of_nat j - Z.of_nat i = (q' - q) * Z.of_nat n)%Z by lia. assert (q' - q = 0)%Z by nia. nia.
    - apply ftmodulus_le; [|assumption]. now apply corr_le. }
  rewrite G. cbn [bind]. rewrite (wrapped_spec n i s) by assumption.
  destruct (Z.ltb_spec 1 S) as [HS|HS]; [|reflexivity].
  rewrite (kap_axis mem false n). cbn [bind]. rewrite centre_size by assumption.
  set (x0 := (- (2 * S - 1 - s * S))%Z).
  rewrite (cc_fine mem n f s S) by (try assumption; try lia; apply (kap_axis mem false n)). cbn [bind].
  replace (x0 + 4 * S - 1 - x0 + 1)%Z with (4 * S)%Z by lia. set (M := Z.to_nat (4 * S)). set (k := Z.to_nat (2 * S - 1)).
  assert (X : forall j, (x0 + Z.of_nat j - s * S = Z.of_nat j - Z.of_nat k)%Z) by (intros j; unfold x0, k; rewrite Z2Nat.id by lia; ring).
  assert (D : forall j, (j < M)%nat -> nth j (map ftmodulus (map (fun i => corr n f (Qc_of_Z (x0 + Z.of_nat i - s * S) / Qc_of_Z S)%Qc) (seq 0 M))) 0
     = ftmodulus (corr n f (Qc_of_Z (Z.of_nat j - Z.of_nat k) / Qc_of_Z S)%Qc)).
  { intros j Hj. rewrite (nth_moduli (corr n f) (fun j => (Qc_of_Z (x0 + Z.of_nat j - s * S) / Qc_of_Z S)%Qc)) by assumption. now rewrite X. }
  clear G. set (data := map ftmodulus _) in *.
  assert (HL : length data = M) by (unfold data; now rewrite !map_length, seq_length).
  assert (Hk : (k < M)%nat) by (unfold k, M; lia).
  assert (V : nth k data 0 = energy n f).
  { rewrite D by assumption. rewrite Z.sub_diag. replace (Qc_of_Z 0 / Qc_of_Z S)%Qc with 0%Qc by (unfold Qcdiv; change (Qc_of_Z 0) with 0%Qc; ring).
    rewrite ftmodulus_big; rewrite corr_0_modulus by assumption; [reflexivity|assumption]. }
  assert (G2 : greatest data = Ok (k, energy n f)).
  { rewrite <- V. apply greatest_at; rewrite ?HL; [assumption| |]; intros j Hj; rewrite V, D by lia.
    - apply ftmodulus_lt; [|assumption]. apply corr_fine_lt; try assumption; [lia|]. unfold k in *. rewrite Z2Nat.id by lia. nia.
    - apply ftmodulus_le; [|assumption]. now apply corr_le. }
  assert (P : cc_maximum1 m (map (fun i => corr n f (Qc_of_Z (x0 + Z.of_nat i - s * S) / Qc_of_Z S)%Qc) (seq 0 M)) = Ok (INR k)).
  { unfold cc_maximum1. fold data. destruct m.
    - rewrite G2. reflexivity.
    - apply (fcentroid1_symmetric data k (energy n f) G2); rewrite ?HL; [assumption| |].
      + intros j Hj. rewrite D by assumption. apply ftmodulus_pos.
      + intros j Hj Hj'. rewrite !D by lia. apply ftmodulus_eq. rewrite <- corr_opp by assumption. do 2 f_equal.
        replace (Z.of_nat (k - j) - Z.of_nat k)%Z with (- Z.of_nat j)%Z by lia.
        replace (Z.of_nat (k + j) - Z.of_nat k)%Z with (Z.of_nat j)%Z by lia. rewrite Qc_of_Z_opp. unfold Qcdiv. ring. }
  rewrite P. cbn [bind]. f_equal. assert (0 < IZR S) by (apply IZR_lt; lia).
  rewrite INR_IZR_INZ. unfold k. rewrite Z2Nat.id by lia. rewrite (minus_IZR (2 * S - 1)), mult_IZR. field. lra.
Qed.
