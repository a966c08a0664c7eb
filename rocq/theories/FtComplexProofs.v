From Verif Require Import FtModel FtSpec FtProofs FtDftProofs FtComplexModel.
From Coq Require Import Reals Qreals Lra.
Local Open Scope R_scope.

Notation K := complex_reals.
Lemma pair_eq (a b c d : R) : a = c -> b = d -> (a, b) = (c, d).
Proof. congruence. Qed.
Lemma cx_ring : ring_theory (czero K) (1, 0) (cadd K) (cmul K)
  (fun x y => cadd K x (- fst y, - snd y)) (fun y => (- fst y, - snd y)) eq.
Proof. constructor; cbn; intros; try destruct x; try destruct y; try destruct z; cbn; apply pair_eq; ring. Qed.

Lemma Q2R_Qc_plus (p q : Qc) : Q2R (this (p + q)%Qc) = Q2R (this p) + Q2R (this q).
Proof. rewrite <- Q2R_plus. apply Qeq_eqR, this_plus. Qed.
Lemma Q2R_Qc_of_Z z : Q2R (this (Qc_of_Z z)) = IZR z.
Proof. unfold Qc_of_Z. rewrite (Qeq_eqR _ _ (this_Q2Qc (inject_Z z))). unfold Q2R, inject_Z. cbn. lra. Qed.

Lemma cx_exp_add p q : cexp K (p + q)%Qc = cmul K (cexp K p) (cexp K q).
Proof.
  cbn [cexp cmul complex_reals fst snd]. rewrite Q2R_Qc_plus, Rmult_plus_distr_l. apply pair_eq; [apply cos_plus|]. rewrite sin_plus. ring.
Qed.
Lemma sin_cos_int z : sin (2 * PI * IZR z) = 0 /\ cos (2 * PI * IZR z) = 1.
Proof.
  assert (forall n : nat, cos (2 * PI * INR n) = 1 /\ sin (2 * PI * INR n) = 0) as H.
  { intros n. split.
    - replace (2 * PI * INR n) with (0 + 2 * INR n * PI) by ring. rewrite cos_period. apply cos_0.
    - replace (2 * PI * INR n) with (0 + 2 * INR n * PI) by ring. rewrite sin_period. apply sin_0. }
  destruct (Z.le_gt_cases 0 z) as [Hz|Hz].
  - destruct (H (Z.to_nat z)) as [H1 H2]. rewrite INR_IZR_INZ, Z2Nat.id in * by assumption. auto.
  - destruct (H (Z.to_nat (- z))) as [H1 H2]. rewrite INR_IZR_INZ, Z2Nat.id in * by lia.
    rewrite opp_IZR in *. replace (2 * PI * - IZR z) with (- (2 * PI * IZR z)) in * by ring.
    rewrite cos_neg in H1. rewrite sin_neg in H2. split; lra.
Qed.
Lemma cx_exp_int z : cexp K (Qc_of_Z z) = (1, 0).
Proof. cbn [cexp complex_reals]. rewrite Q2R_Qc_of_Z. destruct (sin_cos_int z) as [-> ->]. reflexivity. Qed.

Lemma cos_one_int x : cos (2 * PI * x) = 1 -> exists z, x = IZR z.
Proof.
  intros H. replace (2 * PI * x) with (2 * (PI * x)) in H by ring. rewrite cos_2a_sin in H.
  assert (sin (PI * x) = 0) as Hs by nra. destruct (sin_eq_0_0 _ Hs) as [z Hz]. exists z.
  assert (PI * x = PI * IZR z) as He by lra. apply Rmult_eq_reg_l in He; [exact He|]. apply PI_neq0.
Qed.

Lemma cx_integral a b : cmul K a b = (0, 0) -> a <> (0, 0) -> b = (0, 0).
Proof.
  destruct a as [a1 a2], b as [b1 b2]. cbn. intros [= H1 H2] Ha.
  assert (0 < a1 * a1 + a2 * a2) as Hp.
  { destruct (Req_dec a1 0) as [->|H]; [destruct (Req_dec a2 0) as [->|H']; [now destruct Ha|]|]; nra. }
  assert ((a1 * a1 + a2 * a2) * b1 = 0) as E1.
  { replace ((a1 * a1 + a2 * a2) * b1) with (a1 * (a1 * b1 - a2 * b2) + a2 * (a1 * b2 + a2 * b1)) by ring. rewrite H1, H2. ring. }
  assert ((a1 * a1 + a2 * a2) * b2 = 0) as E2.
  { replace ((a1 * a1 + a2 * a2) * b2) with (a1 * (a1 * b2 + a2 * b1) - a2 * (a1 * b1 - a2 * b2)) by ring. rewrite H1, H2. ring. }
  apply Rmult_integral in E1 as [E1|E1]; [lra|]. apply Rmult_integral in E2 as [E2|E2]; [lra|]. now subst.
Qed.

Add Ring Cxring : cx_ring.
Lemma cx_orth n t : (0 < n)%nat -> (t mod Z.of_nat n <> 0)%Z ->
  csum K n (fun j => cexp K (Qc_of_Z (Z.of_nat j * t) / Qc_of_Z (Z.of_nat n))%Qc) = czero K.
Proof.
  intros Hn Ht. set (w := cexp K (Qc_of_Z t / Qc_of_Z (Z.of_nat n))%Qc).
  assert (forall m, cmul K (cadd K (1, 0) (- fst w, - snd w)) (csum K m (fun j => cexp K (Qc_of_Z (Z.of_nat j * t) / Qc_of_Z (Z.of_nat n))%Qc))
    = cadd K (1, 0) (- fst (cexp K (Qc_of_Z (Z.of_nat m * t) / Qc_of_Z (Z.of_nat n))%Qc), - snd (cexp K (Qc_of_Z (Z.of_nat m * t) / Qc_of_Z (Z.of_nat n))%Qc))) as Hg.
  { assert (forall j, cexp K (Qc_of_Z (Z.of_nat (S j) * t) / Qc_of_Z (Z.of_nat n))%Qc = cmul K w (cexp K (Qc_of_Z (Z.of_nat j * t) / Qc_of_Z (Z.of_nat n))%Qc)) as Hstep.
    { intros j. unfold w. rewrite <- cx_exp_add. f_equal.
      replace (Z.of_nat (S j) * t)%Z with (t + Z.of_nat j * t)%Z by lia. rewrite Qc_of_Z_plus. field. now apply nat_Qc_ne. }
    intros m. induction m as [|m IH].
    - assert (cexp K (Qc_of_Z (Z.of_nat 0 * t) / Qc_of_Z (Z.of_nat n))%Qc = (1, 0)) as ->.
      { rewrite <- (cx_exp_int 0). f_equal. rewrite Z.mul_0_l. change (Qc_of_Z 0) with 0%Qc. field. now apply nat_Qc_ne. }
      cbn. apply pair_eq; ring.
    - cbn [csum].
      transitivity (cadd K (cmul K (cadd K (1, 0) (- fst w, - snd w)) (csum K m (fun j => cexp K (Qc_of_Z (Z.of_nat j * t) / Qc_of_Z (Z.of_nat n))%Qc)))
        (cmul K (cadd K (1, 0) (- fst w, - snd w)) (cexp K (Qc_of_Z (Z.of_nat m * t) / Qc_of_Z (Z.of_nat n))%Qc))); [ring|].
      rewrite IH, Hstep. cbn [cadd cmul complex_reals fst snd]. apply pair_eq; ring. }
  assert (cmul K (cadd K (1, 0) (- fst w, - snd w)) (csum K n (fun j => cexp K (Qc_of_Z (Z.of_nat j * t) / Qc_of_Z (Z.of_nat n))%Qc)) = (0, 0)) as H0.
  { rewrite Hg. assert (cexp K (Qc_of_Z (Z.of_nat n * t) / Qc_of_Z (Z.of_nat n))%Qc = (1, 0)) as ->; [|cbn; apply pair_eq; ring].
    rewrite <- (cx_exp_int t). f_equal. rewrite Qc_of_Z_mult. field. now apply nat_Qc_ne. }
  apply cx_integral in H0; [exact H0|]. intros Hw. apply Ht. unfold w in Hw. cbn [cexp cadd fst snd complex_reals] in Hw.
  apply (f_equal fst) in Hw. cbn [fst] in Hw. assert (cos (2 * PI * Q2R (this (Qc_of_Z t / Qc_of_Z (Z.of_nat n))%Qc)) = 1) as Hc by lra.
  apply cos_one_int in Hc as [z Hz].
  assert (IZR t = IZR (z * Z.of_nat n)) as HE.
  { rewrite mult_IZR, <- Hz. rewrite <- (Q2R_Qc_of_Z t), <- (Q2R_Qc_of_Z (Z.of_nat n)). rewrite <- Q2R_mult.
    apply Qeq_eqR. rewrite <- this_mult.
    assert (Qc_of_Z t / Qc_of_Z (Z.of_nat n) * Qc_of_Z (Z.of_nat n) = Qc_of_Z t)%Qc as ->; [|reflexivity].
    field. now apply nat_Qc_ne. }
  apply eq_IZR in HE. rewrite HE. apply Z.mod_mul. lia.
Qed.

Lemma cx_nat n : csum K n (fun _ => (1, 0)) = (INR n, 0).
Proof. induction n as [|n IH]; [reflexivity|]. cbn [csum]. rewrite IH, S_INR. cbn. apply pair_eq; ring. Qed.

Definition cx_laws : exp_laws K.
Proof.
  refine (Build_exp_laws K ((1, 0) : cnum K) (fun y : cnum K => (- fst y, - snd y) : cnum K)
            (fun n => (/ INR n, 0) : cnum K) cx_ring cx_exp_add cx_exp_int cx_orth _ _ _).
  - intros n x. rewrite cx_nat. cbn. apply pair_eq; ring.
  - intros x n. cbn. apply pair_eq; unfold Rdiv; ring.
  - intros n Hn. rewrite cx_nat. cbn. apply pair_eq; [|ring]. rewrite Rmult_0_l, Rminus_0_r. apply Rinv_r. apply not_0_INR. lia.
Defined.

(* ---- the statements about the transforms, for the complex numbers ---- *)
Lemma combination_lincomb a f b g : length g = length f -> combination K a f b g = lincomb a f b g.
Proof.
  unfold combination, lincomb. revert g. induction f as [|x f IH]; intros [|y g] H; try discriminate; [reflexivity|].
  cbn [combine map length seq fst snd cnth nth]. f_equal. rewrite <- seq_shift, map_map. rewrite IH by (cbn in H; now injection H). reflexivity.
Qed.
Lemma dft_length mem f g dx x0 x1 u cen inv norm F G : length g = length f ->
  dft K mem f dx x0 x1 u cen inv norm = Ok F -> dft K mem g dx x0 x1 u cen inv norm = Ok G -> length G = length F.
Proof.
  intros HL. unfold dft. rewrite HL. destruct (default_call dx x0 x1 u && negb cen)%bool.
  - unfold np_fft, np_ifft. rewrite HL. destruct inv, (length f =? 0)%nat; try discriminate; cbn [bind];
      intros [= <-] [= <-]; destruct norm; cbn [is_idl]; now rewrite ?map_length, ?seq_length.
  - destruct (realspace (length f) dx x0 x1) as [x|]; [|discriminate]. cbn [bind].
    match goal with |- context [bind ?e _] => destruct e as [u'|]; [|discriminate] end. cbn [bind].
    destruct inv; match goal with |- context [if ?b then Err ValueError else _] => destruct b; [discriminate|] end; cbn [bind];
      intros [= <-] [= <-]; destruct norm; cbn [is_idl xorb]; unfold kernel_dot; now rewrite ?map_length, ?seq_length.
Qed.
Lemma cx_linear mem a f b g dx x0 x1 u cen inv norm F G : length g = length f ->
  dft K mem f dx x0 x1 u cen inv norm = Ok F -> dft K mem g dx x0 x1 u cen inv norm = Ok G ->
  dft K mem (combination K a f b g) dx x0 x1 u cen inv norm = Ok (combination K a F b G).
Proof.
  intros HL HF HG. rewrite !combination_lincomb by (try assumption; eapply dft_length; eassumption).
  now apply (dft_linear cx_laws).
Qed.

(* requests that are refused *)
Lemma refused_order mem f dx x0 x1 u cen inv norm : (x1 < x0)%Z -> dft K mem f dx x0 (Some x1) u cen inv norm = Err ValueError.
Proof.
  intros H. unfold dft, default_call. rewrite ?Bool.andb_false_r. cbn [andb]. unfold realspace.
  destruct (Z.ltb_spec x1 x0); [reflexivity|lia].
Qed.
Lemma refused_frequencies mem f dx x0 x1 u cen norm : u <> [] -> length u <> length f ->
  dft K mem f dx x0 x1 u cen true norm = Err ValueError.
Proof.
  intros Hu HL. unfold dft. destruct (default_call dx x0 x1 u) eqn:E.
  { apply default_inv in E as (_ & _ & _ & ->). contradiction. }
  cbn [andb]. unfold realspace. match goal with |- context [if ?b then Err ValueError else Ok _] => destruct b; [reflexivity|] end.
  cbn [bind]. destruct u; [contradiction|]. cbn [bind].
  match goal with |- context [negb (?a =? ?b)%nat] => destruct (Nat.eqb_spec a b); [contradiction|] end. reflexivity.
Qed.
Lemma refused_points mem f dx x0 x1 u cen norm : Z.to_nat (x1 - x0 + 1) <> length f ->
  dft K mem f dx x0 (Some x1) u cen false norm = Err ValueError.
Proof.
  intros HL. unfold dft, default_call. rewrite ?Bool.andb_false_r. cbn [andb].
  destruct (realspace (length f) dx x0 (Some x1)) as [x|] eqn:Ex; cbn [bind].
  2:{ unfold realspace in Ex. destruct (x1 <? x0)%Z; [now injection Ex as <-|discriminate]. }
  destruct (realspace_ok _ _ _ _ _ Ex) as (_ & H2 & _). cbn [last_x] in H2.
  destruct u as [|u0 u].
  - rewrite kap_axis. cbn [bind]. destruct (Nat.eqb_spec (length x) (length f)); [congruence|]. reflexivity.
  - cbn [bind]. destruct (Nat.eqb_spec (length x) (length f)); [congruence|]. reflexivity.
Qed.
