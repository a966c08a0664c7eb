From Verif Require Import BaseProofs QcTac NumpyModel FtModel FtSpec FtProofs FtDftProofs FtComplexProofs AlignfftModel AlignfftSpec AlignfftProofs.
From Coq Require Import Reals Qreals Lra Lia.
Local Open Scope R_scope.
Local Notation K := complex_reals.
Local Notation L := cx_laws.
Local Notation e := (cexp complex_reals).
Local Notation sum := (csum complex_reals).

Definition norm2 (z : cx) : R := fst z * fst z + snd z * snd z.
Lemma norm2_pos z : 0 <= norm2 z.
Proof. unfold norm2. assert (A := Rle_0_sqr (fst z)). assert (B := Rle_0_sqr (snd z)). unfold Rsqr in *. lra. Qed.
Lemma norm2_some z : z <> (0, 0) -> 0 < norm2 z.
Proof.
  intros N. assert (H := gap_some (0, 0) z N). unfold gap, norm2 in *. cbn [fst snd] in H. lra.
Qed.
Lemma mul_conj (z : cx) : cmul K z (conjugate z) = (norm2 z, 0).
Proof. unfold conjugate, norm2. cbn. pairs; ring. Qed.

Add Ring CxRing : cx_ring.
Ltac cxring := match goal with |- ?a = ?b => change (@eq (cnum K) a b) end; ring.

Definition coef (n : nat) (f : nat -> cx) (k : nat) : cx := spectrum (K := K) n (kap false n) 0 f k.
Definition turns (n : nat) (k : nat) (t : Qc) : Qc := (Qc_of_Z (kap false n k) * t / Qc_of_Z (Z.of_nat n))%Qc.
(* the correlation of f with itself at the distance t *)
Definition corr (n : nat) (f : nat -> cx) (t : Qc) : cx :=
  cdiv K (sum n (fun k => cmul K (norm2 (coef n f k), 0) (e (turns n k t)))) n.
Definition energy (n : nat) (f : nat -> cx) : R := rsum n (fun i => norm2 (f i)).

Lemma modulus_div z n : (0 < n)%nat -> modulus (cdiv K z n) = modulus z / INR n.
Proof.
  intros Hn. assert (0 < INR n) as P by (apply lt_0_INR; lia). destruct z as [x y]. cbn [cdiv complex_reals fst snd].
  apply modulus_of.
  - apply Rmult_le_pos; [apply modulus_pos|]. left. now apply Rinv_0_lt_compat.
  - assert (Q := modulus_sq (x, y)). cbn [fst snd] in Q.
    replace (modulus (x, y) / INR n * (modulus (x, y) / INR n)) with ((modulus (x, y) * modulus (x, y)) / (INR n * INR n)) by (field; lra).
    rewrite Q. field. lra.
Qed.

(* Parseval *)
Lemma parseval n f : (0 < n)%nat -> rsum n (fun k => norm2 (coef n f k)) = INR n * energy n f.
Proof.
  intros Hn. assert (sum n (fun k => cmul K (coef n f k) (conjugate (coef n f k))) = cmul K (INR n, 0) (energy n f, 0)) as H.
  { transitivity (sum n (fun k => sum n (fun j => cmul K (conjugate (f j)) (cmul K (e (ratio (kap false n k * Z.of_nat j) n)) (coef n f k))))).
    { apply (csum_ext (K := K)). intros k Hk. unfold coef at 2, spectrum. rewrite conj_sum. rewrite <- (csum_mul_l L).
      apply (csum_ext (K := K)). intros j Hj. rewrite conj_mul. rewrite <- e_opp. rewrite Z.add_0_l.
      replace (- - ratio (kap false n k * Z.of_nat j) n)%Qc with (ratio (kap false n k * Z.of_nat j) n) by ring.
      cxring. }
    rewrite (csum_swap L). transitivity (sum n (fun j => cmul K (INR n, 0) (norm2 (f j), 0))).
    { apply (csum_ext (K := K)). intros j Hj. rewrite (csum_mul_l L). unfold coef. rewrite (inversion L) by (assumption || apply kap_residues).
      rewrite Z.sub_0_r, Z.mod_small, Nat2Z.id by lia. rewrite <- mul_conj.
      change (FtDftProofs.c1 K L) with ((1, 0) : cx). rewrite cx_nat. cxring. }
    rewrite (csum_mul_l L). f_equal. rewrite csum_parts. unfold energy. cbn [fst snd].
    pairs; [reflexivity|]. rewrite rsum_total. transitivity (total n (fun _ => 0)); [reflexivity|].
    clear. induction n as [|n IH]; [reflexivity|]. rewrite total_S, IH. lra. }
  rewrite (csum_ext (K := K) n _ (fun k => (norm2 (coef n f k), 0))) in H by (intros; apply mul_conj).
  rewrite csum_parts in H. cbn [fst snd] in H. cbn in H. injection H as H _. rewrite H. ring.
Qed.
Lemma corr_list n f t : corr n f t = cdiv K (zsum (weighted n (fun k => norm2 (coef n f k)) (fun k => e (turns n k t)))) n.
Proof. unfold corr. now rewrite zsum_weighted. Qed.
Lemma corr_weights n f t : convex (weighted n (fun k => norm2 (coef n f k)) (fun k => e (turns n k t))).
Proof. apply weighted_positive. intros k Hk. split; [apply norm2_pos|apply e_unit]. Qed.
Lemma div_mul_nat n x : (0 < n)%nat -> INR n * x / INR n = x.
Proof. intros H. assert (0 < INR n) by (apply lt_0_INR; lia). field. lra. Qed.
Lemma corr_le n f t : (0 < n)%nat -> modulus (corr n f t) <= energy n f.
Proof.
  intros Hn. rewrite corr_list, modulus_div by assumption. rewrite <- (div_mul_nat n (energy n f)), <- parseval by assumption.
  rewrite <- (wsum_weighted n _ (fun k => e (turns n k t))). unfold Rdiv. apply Rmult_le_compat_r.
  - left. apply Rinv_0_lt_compat. apply lt_0_INR. lia.
  - apply zsum_le. apply corr_weights.
Qed.
Definition neighbours (n : nat) (f : nat -> cx) : Prop :=
  exists a b, (a < n)%nat /\ (b < n)%nat /\ kap false n b = (kap false n a + 1)%Z /\ coef n f a <> (0, 0) /\ coef n f b <> (0, 0).
Lemma corr_lt n f t : (0 < n)%nat -> neighbours n f -> (forall z, t <> (Qc_of_Z z * Qc_of_Z (Z.of_nat n))%Qc) -> modulus (corr n f t) < energy n f.
Proof.
  intros Hn (a & b & Ha & Hb & Ek & Na & Nb) Ht. rewrite corr_list, modulus_div by assumption.
  rewrite <- (div_mul_nat n (energy n f)), <- parseval by assumption.
  rewrite <- (wsum_weighted n _ (fun k => e (turns n k t))). unfold Rdiv. apply Rmult_lt_compat_r.
  - apply Rinv_0_lt_compat. apply lt_0_INR. lia.
  - apply (zsum_lt _ (norm2 (coef n f b), e (turns n b t)) (norm2 (coef n f a), e (turns n a t))); cbn [fst snd];
      try (now apply norm2_some).
    + apply corr_weights.
    + apply (weighted_in n (fun k => norm2 (coef n f k)) (fun k => e (turns n k t)) b Hb).
    + apply (weighted_in n (fun k => norm2 (coef n f k)) (fun k => e (turns n k t)) a Ha).
    + intros E. apply e_same in E as [z E]. apply (Ht z). rewrite <- E. unfold turns. rewrite Ek, Qc_of_Z_plus.
      change (Qc_of_Z 1) with 1%Qc. field. now apply nat_Qc_ne.
Qed.
Lemma corr_0 n f : (0 < n)%nat -> corr n f 0%Qc = (energy n f, 0).
Proof.
  intros Hn. rewrite corr_list. rewrite zsum_ones.
  - rewrite wsum_weighted, parseval by assumption. cbn. pairs; [now apply div_mul_nat|unfold Rdiv; ring].
  - apply Forall_forall. intros p I. apply in_map_iff in I as (k & <- & _). cbn [snd].
    replace (turns n k 0) with (Qc_of_Z 0); [apply cx_exp_int|]. unfold turns. change (Qc_of_Z 0) with 0%Qc. unfold Qcdiv. ring.
Qed.
Lemma energy_pos n f : 0 <= energy n f.
Proof. unfold energy. induction n as [|n IH]; cbn [rsum]; [lra|]. assert (H := norm2_pos (f n)). lra. Qed.
Lemma corr_0_modulus n f : (0 < n)%nat -> modulus (corr n f 0%Qc) = energy n f.
Proof. intros Hn. rewrite corr_0 by assumption. apply modulus_of; [apply energy_pos|ring]. Qed.
Lemma corr_opp n f t : (0 < n)%nat -> modulus (corr n f (- t)%Qc) = modulus (corr n f t).
Proof.
  intros Hn. rewrite !corr_list, !modulus_div by assumption. f_equal. rewrite <- zsum_flip, flip_weighted. do 2 f_equal.
  apply weighted_ext. intros k Hk. split; [reflexivity|]. rewrite <- e_opp. f_equal. unfold turns, Qcdiv. ring.
Qed.

(* ---- the transforms of an image and of the moved image ---- *)
Lemma moved_spec n s j : (0 < n)%nat -> (moved n s j < n)%nat.
Proof. intros H. unfold moved. assert (0 <= (Z.of_nat j - s) mod Z.of_nat n < Z.of_nat n)%Z by (apply Z.mod_pos_bound; lia). lia. Qed.
Lemma moved_back n s j : (0 < n)%nat -> (j < n)%nat ->
  moved n s ((j + Z.to_nat (s mod Z.of_nat n)) mod n) = j.
Proof.
  intros Hn Hj. unfold moved. assert (B := Z.mod_pos_bound s (Z.of_nat n) ltac:(lia)).
  rewrite Nat2Z.inj_mod, Nat2Z.inj_add, Z2Nat.id by lia. rewrite Zminus_mod_idemp_l.
  rewrite <- Zminus_mod_idemp_r. replace (Z.of_nat j + s mod Z.of_nat n - s mod Z.of_nat n)%Z with (Z.of_nat j) by ring.
  rewrite Z.mod_small by lia. apply Nat2Z.id.
Qed.
Lemma coef_moved n f f' s k : (0 < n)%nat -> (forall j, (j < n)%nat -> f' j = f (moved n s j)) ->
  coef n f' k = cmul K (e (- ratio (kap false n k * s) n)%Qc) (coef n f k).
Proof.
  intros Hn H. unfold coef, spectrum. set (s' := Z.to_nat (s mod Z.of_nat n)).
  rewrite <- (csum_rot L (fun _ => 0%Z) n s'). rewrite <- (csum_mul_l L). apply (csum_ext (K := K)). intros j Hj.
  assert ((j + s') mod n < n)%nat by (apply Nat.mod_upper_bound; lia).
  rewrite H by assumption. unfold s' at 1. rewrite moved_back by assumption.
  rewrite <- !ratio_opp. rewrite !Z.add_0_l. assert (B := Z.mod_pos_bound s (Z.of_nat n) ltac:(lia)).
  transitivity (cmul K (f j) (e (ratio (- (kap false n k * (Z.of_nat j + s))) n))).
  - f_equal. apply (e_congr L); [assumption|]. rewrite Nat2Z.inj_mod, Nat2Z.inj_add. unfold s'. rewrite Z2Nat.id by lia.
    rewrite Zplus_mod_idemp_r. apply Z.mod_divide; [lia|]. exists (kap false n k * ((Z.of_nat j + s) / Z.of_nat n))%Z.
    assert (D := Z.div_mod (Z.of_nat j + s) (Z.of_nat n) ltac:(lia)).
    set (q := ((Z.of_nat j + s) / Z.of_nat n)%Z) in *. set (m := ((Z.of_nat j + s) mod Z.of_nat n)%Z) in *. rewrite D. ring.
  - replace (- (kap false n k * (Z.of_nat j + s)))%Z with (- (kap false n k * s) + - (kap false n k * Z.of_nat j))%Z by ring.
    rewrite ratio_add, cx_exp_add by assumption. cxring.
Qed.
Lemma fft_values mem n f : (0 < n)%nat ->
  dft K mem (map f (seq 0 n)) 1%Qc 0 None [] false false Numpy = Ok (map (coef n f) (seq 0 n)).
Proof.
  intros Hn. assert (length (map f (seq 0 n)) = n) as HL by now rewrite map_length, seq_length.
  destruct (forward_total (K := K) mem (map f (seq 0 n)) 1%Qc 0 None false Numpy) as [F HF]; rewrite ?HL; try assumption; [cbn; lia|].
  rewrite HF. f_equal. apply (forward L mem) in HF as [_ HF]; [|now rewrite HL|discriminate]. rewrite HL in HF. rewrite HF.
  apply map_ext_in. intros k Ik. apply in_seq in Ik. unfold nrm. cbn [is_idl]. unfold coef, spectrum. apply (csum_ext (K := K)). intros j Hj.
  f_equal. now apply cnth_map.
Qed.
(* the product of the transforms *)
Definition product (f g : list cx) : list cx := map (fun p => cmul K (fst p) (conjugate (snd p))) (combine f g).
Lemma combine_maps {A B} (f : nat -> A) (g : nat -> B) l : combine (map f l) (map g l) = map (fun k => (f k, g k)) l.
Proof. induction l as [|x l IH]; [reflexivity|]. cbn. now rewrite IH. Qed.
Lemma product_moved n f f' s : (0 < n)%nat -> (forall j, (j < n)%nat -> f' j = f (moved n s j)) ->
  product (map (coef n f') (seq 0 n)) (map (coef n f) (seq 0 n)) =
  map (fun k => cmul K (norm2 (coef n f k), 0) (e (- ratio (kap false n k * s) n)%Qc)) (seq 0 n).
Proof.
  intros Hn H. unfold product. rewrite combine_maps, map_map. apply map_ext. intros k. cbn [fst snd].
  rewrite (coef_moved n f f' s k Hn H). rewrite <- mul_conj. cxring.
Qed.
Lemma cc_coarse mem n f s : (0 < n)%nat ->
  dft K mem (map (fun k => cmul K (norm2 (coef n f k), 0) (e (- ratio (kap false n k * s) n)%Qc)) (seq 0 n)) 1%Qc 0 None [] false true Numpy
  = Ok (map (fun i => corr n f (Qc_of_Z (Z.of_nat i - s))) (seq 0 n)).
Proof.
  intros Hn. set (P := map _ (seq 0 n)). assert (length P = n) as HL by (unfold P; now rewrite map_length, seq_length).
  rewrite (backward L mem) by (rewrite ?HL; try assumption; try discriminate; cbn; lia). rewrite HL. cbn [last_x].
  replace (Z.to_nat (Z.of_nat n - 1 - 0 + 1)) with n by lia. f_equal. apply map_ext_in. intros i Hi. apply in_seq in Hi.
  unfold nrm'. cbn [is_idl]. unfold corr. f_equal. apply (csum_ext (K := K)). intros k Hk. unfold P. rewrite (cnth_map (K := K)) by assumption.
  transitivity (cmul K (norm2 (coef n f k), 0) (cmul K (e (ratio (kap false n k * (0 + Z.of_nat i)) n)) (e (- ratio (kap false n k * s) n)%Qc))).
  { cxring. }
  f_equal. rewrite <- cx_exp_add. f_equal. unfold turns, ratio. rewrite !Qc_of_Z_mult, Z.add_0_l.
  unfold Z.sub. rewrite Qc_of_Z_plus, Qc_of_Z_opp. field. now apply nat_Qc_ne.
Qed.
Lemma cc_fine mem n f s S x0 x1 u : (0 < n)%nat -> (0 < S)%Z -> (x0 <= x1)%Z ->
  fftfreq mem (Z.of_nat n) (Qc_of_Z S) false Numpy = Ok u ->
  dft K mem (map (fun k => cmul K (norm2 (coef n f k), 0) (e (- ratio (kap false n k * s) n)%Qc)) (seq 0 n)) 1%Qc x0 (Some x1) u false true Numpy
  = Ok (map (fun i => corr n f (Qc_of_Z (x0 + Z.of_nat i - s * S) / Qc_of_Z S)%Qc) (seq 0 (Z.to_nat (x1 - x0 + 1)))).
Proof.
  intros Hn HS Hx Hu. set (P := map _ (seq 0 n)). assert (length P = n) as HL by (unfold P; now rewrite map_length, seq_length).
  rewrite (kap_axis mem false n) in Hu. injection Hu as Hu.
  assert (length u = n) as HLu by (rewrite <- Hu, map_length, seq_length; reflexivity).
  unfold dft. assert (default_call 1 x0 (Some x1) u = false) as -> by (unfold default_call; now rewrite andb_false_r). cbn [andb].
  destruct (realspace_total (length P) 1%Qc x0 (Some x1) Hx) as [x Ex]. rewrite Ex. cbn [bind].
  destruct (realspace_ok _ _ _ _ _ Ex) as (H1 & H2 & H3). cbn [last_x] in *.
  assert (match u with [] => fftfreq mem (Z.of_nat (length P)) 1 false Numpy | _ => Ok u end = Ok u) as ->.
  { destruct u; [cbn in HLu; lia|reflexivity]. }
  cbn [bind]. rewrite HLu, HL, Nat.eqb_refl. cbn [negb bind is_idl xorb]. f_equal. unfold kernel_dot. rewrite map_map, H2.
  apply map_ext_in. intros i Hi. apply in_seq in Hi. unfold corr. f_equal. rewrite HLu. apply (csum_ext (K := K)). intros k Hk.
  unfold P. rewrite (cnth_map (K := K)) by assumption. rewrite <- Hu, qnth_freq by assumption. rewrite H3 by lia.
  assert (Qc_of_Z S <> 0%Qc) as NS by (apply Qc_pos_ne, Qc_of_Z_pos; lia). assert (NN := nat_Qc_ne n Hn).
  change (freq_index Numpy n k) with (kap false n k).
  transitivity (cmul K (norm2 (coef n f k), 0) (cmul K (e (1 * (Qc_of_Z (x0 + Z.of_nat i) * 1 * freq_of n (Qc_of_Z S) (kap false n k)))%Qc)
     (e (- ratio (kap false n k * s) n)%Qc))).
  { cxring. }
  f_equal. rewrite <- cx_exp_add. f_equal. unfold turns, ratio, freq_of.
  unfold Z.sub. rewrite !Qc_of_Z_plus, Qc_of_Z_opp, !Qc_of_Z_mult. field. split; assumption.
Qed.
