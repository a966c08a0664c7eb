From Verif Require Import BaseProofs QcTac NumpyModel FtModel FtSpec FtProofs FtDftProofs FtComplexProofs AlignfftModel AlignfftSpec AlignfftProofs AlignfftPeak AlignfftLine.
From Coq Require Import Reals Qreals Lra Lia.
Local Open Scope R_scope.
Local Notation K := complex_reals.
Local Notation L := cx_laws.
Local Notation e := (cexp complex_reals).
Local Notation sum := (csum complex_reals).
Add Ring CxRing2 : cx_ring.
Ltac cxring := match goal with |- ?a = ?b => change (@eq (cnum K) a b) end; ring.

Definition coef2 (r c : nat) (f : nat -> nat -> cx) (k l : nat) : cx := coef c (fun x => coef r (fun y => f y x) k) l.
Definition corr2 (r c : nat) (f : nat -> nat -> cx) (ty tx : Qc) : cx :=
  cdiv K (sum r (fun k => sum c (fun l => cmul K (norm2 (coef2 r c f k l), 0) (e (turns r k ty + turns c l tx)%Qc)))) (r * c).
Definition energy2 (r c : nat) (f : nat -> nat -> cx) : R := rsum r (fun i => rsum c (fun j => norm2 (f i j))).

Lemma rsum_swap n m (f : nat -> nat -> R) : rsum n (fun i => rsum m (f i)) = rsum m (fun j => rsum n (fun i => f i j)).
Proof.
  induction n as [|n IH]; cbn [rsum].
  - induction m as [|m IH]; cbn [rsum]; [reflexivity|]. rewrite <- IH. ring.
  - rewrite IH, <- rsum_add. reflexivity.
Qed.
Lemma parseval2 r c f : (0 < r)%nat -> (0 < c)%nat ->
  rsum r (fun k => rsum c (fun l => norm2 (coef2 r c f k l))) = INR (r * c) * energy2 r c f.
Proof.
  intros Hr Hc. transitivity (rsum r (fun k => INR c * energy c (fun x => coef r (fun y => f y x) k))).
  { apply rsum_ext. intros k Hk. unfold coef2. now apply parseval. }
  rewrite rsum_scal. unfold energy. rewrite rsum_swap.
  transitivity (INR c * rsum c (fun x => INR r * energy r (fun y => f y x))).
  { f_equal. apply rsum_ext. intros x Hx. now apply parseval. }
  rewrite rsum_scal. unfold energy, energy2. rewrite (rsum_swap r c). rewrite mult_INR. ring.
Qed.
Definition terms (r c : nat) (f : nat -> nat -> cx) (ty tx : Qc) : list (R * cx) :=
  grid_weighted r c (fun k l => norm2 (coef2 r c f k l)) (fun k l => e (turns r k ty + turns c l tx)%Qc).
Lemma corr2_list r c f ty tx : corr2 r c f ty tx = cdiv K (zsum (terms r c f ty tx)) (r * c).
Proof. unfold corr2, terms. now rewrite zsum_grid. Qed.
Lemma terms_convex r c f ty tx : convex (terms r c f ty tx).
Proof. apply grid_positive. intros k l Hk Hl. split; [apply norm2_pos|apply e_unit]. Qed.
Lemma terms_sum r c f ty tx : (0 < r)%nat -> (0 < c)%nat -> wsum (terms r c f ty tx) = INR (r * c) * energy2 r c f.
Proof. intros Hr Hc. unfold terms. now rewrite wsum_grid, parseval2. Qed.
Lemma corr2_le r c f ty tx : (0 < r)%nat -> (0 < c)%nat -> modulus (corr2 r c f ty tx) <= energy2 r c f.
Proof.
  intros Hr Hc. assert (0 < r * c)%nat by nia. rewrite corr2_list, modulus_div by assumption.
  rewrite <- (div_mul_nat (r * c) (energy2 r c f)), <- (terms_sum r c f ty tx) by assumption.
  unfold Rdiv. apply Rmult_le_compat_r; [left; apply Rinv_0_lt_compat; apply lt_0_INR; lia|]. apply zsum_le. apply terms_convex.
Qed.
Definition neighbours2 (r c : nat) (f : nat -> nat -> cx) : Prop :=
  (exists a b l, (a < r)%nat /\ (b < r)%nat /\ (l < c)%nat /\ kap false r b = (kap false r a + 1)%Z /\
     coef2 r c f a l <> (0, 0) /\ coef2 r c f b l <> (0, 0)) /\
  (exists k a b, (k < r)%nat /\ (a < c)%nat /\ (b < c)%nat /\ kap false c b = (kap false c a + 1)%Z /\
     coef2 r c f k a <> (0, 0) /\ coef2 r c f k b <> (0, 0)).
Lemma corr2_differ r c f ty tx k l k' l' : (k < r)%nat -> (l < c)%nat -> (k' < r)%nat -> (l' < c)%nat ->
  coef2 r c f k l <> (0, 0) -> coef2 r c f k' l' <> (0, 0) ->
  e (turns r k ty + turns c l tx)%Qc <> e (turns r k' ty + turns c l' tx)%Qc -> modulus (corr2 r c f ty tx) < energy2 r c f.
Proof.
  intros Hk Hl Hk' Hl' N N' D. assert (0 < r)%nat by lia. assert (0 < c)%nat by lia. assert (0 < r * c)%nat by nia.
  rewrite corr2_list, modulus_div by assumption.
  rewrite <- (div_mul_nat (r * c) (energy2 r c f)), <- (terms_sum r c f ty tx) by assumption.
  unfold Rdiv. apply Rmult_lt_compat_r; [apply Rinv_0_lt_compat; apply lt_0_INR; lia|].
  apply (zsum_lt _ (norm2 (coef2 r c f k l), e (turns r k ty + turns c l tx)%Qc) (norm2 (coef2 r c f k' l'), e (turns r k' ty + turns c l' tx)%Qc));
    cbn [fst snd]; try (now apply norm2_some).
  - apply terms_convex.
  - apply (grid_in r c (fun k l => norm2 (coef2 r c f k l)) (fun k l => e (turns r k ty + turns c l tx)%Qc)); assumption.
  - apply (grid_in r c (fun k l => norm2 (coef2 r c f k l)) (fun k l => e (turns r k ty + turns c l tx)%Qc)); assumption.
  - exact D.
Qed.
Lemma turns_step n a b t : (0 < n)%nat -> kap false n b = (kap false n a + 1)%Z -> (turns n b t - turns n a t)%Qc = (t / Qc_of_Z (Z.of_nat n))%Qc.
Proof.
  intros Hn E. unfold turns. rewrite E, Qc_of_Z_plus. change (Qc_of_Z 1) with 1%Qc. field. now apply nat_Qc_ne.
Qed.
Lemma corr2_lt r c f ty tx : neighbours2 r c f ->
  (forall z, ty <> (Qc_of_Z z * Qc_of_Z (Z.of_nat r))%Qc) \/ (forall z, tx <> (Qc_of_Z z * Qc_of_Z (Z.of_nat c))%Qc) ->
  modulus (corr2 r c f ty tx) < energy2 r c f.
Proof.
  intros [(a & b & l & Ha & Hb & Hl & Ek & Na & Nb) (k & a' & b' & Hk & Ha' & Hb' & Ek' & Na' & Nb')] [H|H].
  - apply (corr2_differ r c f ty tx b l a l); try assumption. intros E. apply e_same in E as [z E]. apply (H z). rewrite <- E.
    assert (0 < r)%nat as Hr by lia. assert (T := turns_step r a b ty Hr Ek).
    replace (turns r b ty + turns c l tx - (turns r a ty + turns c l tx))%Qc with (turns r b ty - turns r a ty)%Qc by ring.
    rewrite T. field. now apply nat_Qc_ne.
  - apply (corr2_differ r c f ty tx k b' k a'); try assumption. intros E. apply e_same in E as [z E]. apply (H z). rewrite <- E.
    assert (0 < c)%nat as Hc by lia. assert (T := turns_step c a' b' tx Hc Ek').
    replace (turns r k ty + turns c b' tx - (turns r k ty + turns c a' tx))%Qc with (turns c b' tx - turns c a' tx)%Qc by ring.
    rewrite T. field. now apply nat_Qc_ne.
Qed.
Lemma energy2_pos r c f : 0 <= energy2 r c f.
Proof.
  unfold energy2. induction r as [|r IH]; cbn [rsum]; [lra|].
  assert (H := energy_pos c (fun j => f r j)). unfold energy in H. lra.
Qed.
Lemma grid_all (P : R * cx -> Prop) r c w u : (forall k l, P (w k l, u k l)) -> Forall P (grid_weighted r c w u).
Proof.
  intros H. induction r as [|r IH]; [constructor|]. cbn [grid_weighted]. apply Forall_app. split; [exact IH|].
  apply Forall_forall. intros p I. apply in_map_iff in I as (k & <- & _). apply H.
Qed.
Lemma corr2_multiple r c f zy zx : (0 < r)%nat -> (0 < c)%nat ->
  modulus (corr2 r c f (Qc_of_Z (zy * Z.of_nat r)) (Qc_of_Z (zx * Z.of_nat c))) = energy2 r c f.
Proof.
  intros Hr Hc. assert (0 < r * c)%nat by nia. rewrite corr2_list, modulus_div by assumption. rewrite zsum_ones.
  - rewrite terms_sum by assumption. rewrite (modulus_of _ _ (INR (r * c) * energy2 r c f)).
    + now apply div_mul_nat.
    + apply Rmult_le_pos; [apply pos_INR|apply energy2_pos].
    + ring.
  - apply grid_all. intros k l. cbn [snd]. rewrite <- (cx_exp_int (kap false r k * zy + kap false c l * zx)). f_equal. unfold turns.
    rewrite Qc_of_Z_plus, !Qc_of_Z_mult. field. split; now apply nat_Qc_ne.
Qed.
Lemma corr2_0 r c f : (0 < r)%nat -> (0 < c)%nat -> modulus (corr2 r c f 0%Qc 0%Qc) = energy2 r c f.
Proof. intros Hr Hc. rewrite <- (corr2_multiple r c f 0 0) by assumption. reflexivity. Qed.
Lemma grid_ext r c w u u' : (forall k l, u k l = u' k l) -> grid_weighted r c w u = grid_weighted r c w u'.
Proof. intros H. induction r as [|r IH]; [reflexivity|]. cbn [grid_weighted]. rewrite IH. f_equal. apply weighted_ext. auto. Qed.
Lemma corr2_opp r c f ty tx : (0 < r)%nat -> (0 < c)%nat -> modulus (corr2 r c f (- ty)%Qc (- tx)%Qc) = modulus (corr2 r c f ty tx).
Proof.
  intros Hr Hc. assert (0 < r * c)%nat by nia. rewrite !corr2_list, !modulus_div by assumption. f_equal.
  rewrite <- zsum_flip. unfold terms. rewrite flip_grid. do 2 f_equal. apply grid_ext. intros k l. rewrite <- e_opp. f_equal.
  unfold turns, Qcdiv. ring.
Qed.

(* ---- the transforms ---- *)
Lemma coef_ext n f g k : (forall j, (j < n)%nat -> f j = g j) -> coef n f k = coef n g k.
Proof. intros H. unfold coef, spectrum. apply (csum_ext (K := K)). intros j Hj. now rewrite H. Qed.
Lemma coef_scal n a f k : coef n (fun j => cmul K a (f j)) k = cmul K a (coef n f k).
Proof. unfold coef, spectrum. rewrite <- (csum_mul_l L). apply (csum_ext (K := K)). intros j Hj. cxring. Qed.
Lemma coef2_moved r c f f' sy sx k l : (0 < r)%nat -> (0 < c)%nat ->
  (forall i j, (i < r)%nat -> (j < c)%nat -> f' i j = f (moved r sy i) (moved c sx j)) ->
  coef2 r c f' k l = cmul K (e (- (ratio (kap false r k * sy) r + ratio (kap false c l * sx) c))%Qc) (coef2 r c f k l).
Proof.
  intros Hr Hc H. unfold coef2.
  transitivity (coef c (fun x => cmul K (e (- ratio (kap false r k * sy) r)%Qc) (coef r (fun y => f y (moved c sx x)) k)) l).
  { apply coef_ext. intros x Hx. apply coef_moved; [assumption|]. intros y Hy. now apply H. }
  rewrite coef_scal. rewrite (coef_moved c (fun x => coef r (fun y => f y x) k) (fun x => coef r (fun y => f y (moved c sx x)) k) sx l Hc) by reflexivity.
  replace (- (ratio (kap false r k * sy) r + ratio (kap false c l * sx) c))%Qc
    with (- ratio (kap false r k * sy) r + - ratio (kap false c l * sx) c)%Qc by ring. rewrite cx_exp_add. cxring.
Qed.
Lemma fft2_values mem r c f : (0 < r)%nat -> (0 < c)%nat ->
  exists F, dft2 K mem (matrix K r c f) 1%Qc 0 None [] 1%Qc 0 None [] false false Numpy = Ok F /\ shp F = [r; c] /\
    forall i j, (i < r)%nat -> (j < c)%nat -> elt F [i; j] = coef2 r c f i j.
Proof.
  intros Hr Hc. destruct (forward2_total (K := K) mem (matrix K r c f) r c 1%Qc 0 None 1%Qc 0 None false Numpy) as [F HF];
    try assumption; try reflexivity; try (cbn; lia).
  exists F. split; [exact HF|].
  apply (forward2 L mem) with (r := r) (c := c) in HF as (_ & _ & H1 & H2); try assumption; try reflexivity; try discriminate.
  split; [exact H1|]. intros i j Hi Hj. rewrite H2 by assumption. reflexivity.
Qed.
Definition product2 (r c : nat) (f g : arr cx) : arr cx :=
  matrix K r c (fun i j => cmul K (elt f [i; j]) (conjugate (elt g [i; j]))).
Definition moved_product (r c : nat) (f : nat -> nat -> cx) (sy sx : Z) (P : arr cx) : Prop :=
  shp P = [r; c] /\ forall k l, (k < r)%nat -> (l < c)%nat ->
    elt P [k; l] = cmul K (norm2 (coef2 r c f k l), 0) (e (- (ratio (kap false r k * sy) r + ratio (kap false c l * sx) c))%Qc).
Lemma product2_moved r c f f' F F' sy sx : (0 < r)%nat -> (0 < c)%nat ->
  (forall i j, (i < r)%nat -> (j < c)%nat -> f' i j = f (moved r sy i) (moved c sx j)) ->
  (forall i j, (i < r)%nat -> (j < c)%nat -> elt F [i; j] = coef2 r c f i j) ->
  (forall i j, (i < r)%nat -> (j < c)%nat -> elt F' [i; j] = coef2 r c f' i j) ->
  moved_product r c f sy sx (product2 r c F' F).
Proof.
  intros Hr Hc HM H H'. split; [reflexivity|]. intros k l Hk Hl. unfold product2, matrix. cbn [elt]. rewrite H, H' by assumption.
  rewrite (coef2_moved r c f f' sy sx) by assumption. rewrite <- mul_conj. cxring.
Qed.
Lemma inner_sum r c (f : nat -> nat -> cx) (A : nat -> Qc) (B : nat -> Qc) :
  sum c (fun l => cmul K (sum r (fun k => cmul K (e (A k)) (f k l))) (e (B l))) =
  sum r (fun k => sum c (fun l => cmul K (f k l) (e (A k + B l)%Qc))).
Proof.
  rewrite (csum_swap L). apply (csum_ext (K := K)). intros l Hl. rewrite <- (csum_mul_r L). apply (csum_ext (K := K)). intros k Hk.
  rewrite cx_exp_add. cxring.
Qed.
Lemma product_sum r c f sy sx P (A B : nat -> Qc) ty tx : moved_product r c f sy sx P ->
  (forall k, (k < r)%nat -> (A k - ratio (kap false r k * sy) r)%Qc = turns r k ty) ->
  (forall l, (l < c)%nat -> (B l - ratio (kap false c l * sx) c)%Qc = turns c l tx) ->
  cdiv K (sum c (fun l => cmul K (sum r (fun k => cmul K (e (A k)) (elt P [k; l]))) (e (B l)))) (r * c) = corr2 r c f ty tx.
Proof.
  intros [_ HP] HA HB. unfold corr2. f_equal. rewrite (inner_sum r c (fun k l => elt P [k; l])).
  apply (csum_ext (K := K)). intros k Hk. apply (csum_ext (K := K)). intros l Hl. rewrite HP by assumption.
  rewrite <- HA, <- HB by assumption.
  replace (A k - ratio (kap false r k * sy) r + (B l - ratio (kap false c l * sx) c))%Qc
    with (- (ratio (kap false r k * sy) r + ratio (kap false c l * sx) c) + (A k + B l))%Qc by ring.
  rewrite (cx_exp_add (- (ratio (kap false r k * sy) r + ratio (kap false c l * sx) c))). cxring.
Qed.
Lemma cc2_coarse mem r c f sy sx P : (0 < r)%nat -> (0 < c)%nat -> moved_product r c f sy sx P ->
  exists g, dft2 K mem P 1%Qc 0 None [] 1%Qc 0 None [] false true Numpy = Ok g /\ shp g = [r; c] /\
    forall i j, (i < r)%nat -> (j < c)%nat -> elt g [i; j] = corr2 r c f (Qc_of_Z (Z.of_nat i - sy)) (Qc_of_Z (Z.of_nat j - sx)).
Proof.
  intros Hr Hc HP. destruct (backward2 L mem P r c 1%Qc 0 None [] 1%Qc 1%Qc 0 None [] 1%Qc false Numpy) as (g & Hg & Hs & He);
    try assumption; try discriminate; try (now left); try (cbn; lia); [apply HP|].
  cbn [last_x] in *. replace (Z.to_nat (Z.of_nat r - 1 - 0 + 1)) with r in * by lia. replace (Z.to_nat (Z.of_nat c - 1 - 0 + 1)) with c in * by lia.
  exists g. split; [exact Hg|]. split; [exact Hs|]. intros i j Hi Hj.
  rewrite (He i j (Z.of_nat i) (Z.of_nat j)) by (assumption || now rewrite Z.add_0_l).
  unfold nrm'. cbn [is_idl]. apply (product_sum r c f sy sx P _ _ _ _ HP); intros k Hk; unfold turns, ratio, Z.sub;
    rewrite !Qc_of_Z_mult, Qc_of_Z_plus, Qc_of_Z_opp; field; now apply nat_Qc_ne.
Qed.
Lemma cc2_fine mem r c f sy sx P S y0 y1 x0 x1 u v : (0 < r)%nat -> (0 < c)%nat -> (0 < S)%Z -> (x0 <= x1)%Z -> (y0 <= y1)%Z ->
  moved_product r c f sy sx P ->
  fftfreq mem (Z.of_nat c) (Qc_of_Z S) false Numpy = Ok u -> fftfreq mem (Z.of_nat r) (Qc_of_Z S) false Numpy = Ok v ->
  exists g, dft2 K mem P 1%Qc x0 (Some x1) u 1%Qc y0 (Some y1) v false true Numpy = Ok g /\
    shp g = [Z.to_nat (y1 - y0 + 1); Z.to_nat (x1 - x0 + 1)] /\
    forall i j, (i < Z.to_nat (y1 - y0 + 1))%nat -> (j < Z.to_nat (x1 - x0 + 1))%nat ->
      elt g [i; j] = corr2 r c f (Qc_of_Z (y0 + Z.of_nat i - sy * S) / Qc_of_Z S)%Qc (Qc_of_Z (x0 + Z.of_nat j - sx * S) / Qc_of_Z S)%Qc.
Proof.
  intros Hr Hc HS Hx Hy HP Hu Hv. assert (Hs : @shp (cnum K) P = [r; c]) by apply HP.
  assert (rows K P = r) as Er by (unfold rows; now rewrite Hs). assert (cols K P = c) as Ec by (unfold cols; now rewrite Hs).
  rewrite (kap_axis mem false c) in Hu. injection Hu as Hu. rewrite (kap_axis mem false r) in Hv. injection Hv as Hv.
  assert (HLu : length u = c) by (rewrite <- Hu, map_length, seq_length; reflexivity).
  assert (HLv : length v = r) by (rewrite <- Hv, map_length, seq_length; reflexivity).
  unfold dft2. assert (default_call 1 x0 (Some x1) u = false) as -> by (unfold default_call; now rewrite andb_false_r). cbn [andb].
  rewrite Er, Ec.
  destruct (realspace_total c 1%Qc x0 (Some x1) Hx) as [x Ex]. rewrite Ex. destruct (realspace_total r 1%Qc y0 (Some y1) Hy) as [y Ey]. rewrite Ey.
  cbn [bind]. destruct (realspace_ok _ _ _ _ _ Ex) as (H1 & H2 & H3). destruct (realspace_ok _ _ _ _ _ Ey) as (G1 & G2 & G3). cbn [last_x] in *.
  assert (match u with [] => fftfreq mem (Z.of_nat c) 1 false Numpy | _ => Ok u end = Ok u) as ->.
  { destruct u; [cbn in HLu; lia|reflexivity]. }
  assert (match v with [] => fftfreq mem (Z.of_nat r) 1 false Numpy | _ => Ok v end = Ok v) as ->.
  { destruct v; [cbn in HLv; lia|reflexivity]. }
  cbn [bind]. rewrite HLu, HLv, !Nat.eqb_refl. cbn [negb orb bind].
  unfold mdot at 1. assert (cols K (kernel K 1 y v) = r) as -> by (unfold kernel, cols; cbn; exact HLv). rewrite Er, Nat.eqb_refl. cbn [negb bind].
  unfold mdot at 1. rewrite Ec.
  match goal with |- context [cols K (matrix K ?a ?b ?g)] => assert (cols K (matrix K a b g) = c) as -> by reflexivity; assert (rows K (matrix K a b g) = length y) as -> by reflexivity end.
  assert (rows K (kernel K 1 u x) = c) as -> by (unfold kernel, rows; cbn; exact HLu). rewrite Nat.eqb_refl. cbn [negb bind is_idl xorb].
  eexists. split; [reflexivity|]. split; [cbn [map_arr shp matrix]; unfold kernel, cols; cbn [matrix shp nth]; now rewrite G2, H2|].
  intros i j Hi Hj. cbn [map_arr elt matrix kernel]. rewrite (Nat.mul_comm c r).
  assert (Qc_of_Z S <> 0%Qc) as NS by (apply Qc_pos_ne, Qc_of_Z_pos; lia).
  etransitivity; [|apply (product_sum r c f sy sx P (fun k => (1 * (qnth y i * qnth v k))%Qc) (fun l => (1 * (qnth u l * qnth x j))%Qc) _ _ HP)].
  - reflexivity.
  - intros k Hk. rewrite <- Hv, qnth_freq by assumption. change (freq_index Numpy r k) with (kap false r k). rewrite G3 by lia.
    unfold turns, ratio, freq_of, Z.sub. rewrite !Qc_of_Z_plus, Qc_of_Z_opp, !Qc_of_Z_mult. field. split; [assumption|now apply nat_Qc_ne].
  - intros k Hk. rewrite <- Hu, qnth_freq by assumption. change (freq_index Numpy c k) with (kap false c k). rewrite H3 by lia.
    unfold turns, ratio, freq_of, Z.sub. rewrite !Qc_of_Z_plus, Qc_of_Z_opp, !Qc_of_Z_mult. field. split; [assumption|now apply nat_Qc_ne].
Qed.
