From Verif Require Import BaseProofs QcTac NumpyModel FtModel FtSpec FtProofs FtDftProofs FtComplexProofs AlignfftModel AlignfftSpec.
From Coq Require Import Reals Qreals Lra Lia.
Local Open Scope R_scope.
Local Notation K := complex_reals.
Local Notation L := cx_laws.
Local Notation e := (cexp complex_reals).
Local Notation sum := (csum complex_reals).

Ltac pairs := match goal with |- ?a = ?b => change (@eq (R * R) a b) end; apply pair_eq.

(* ---- positive combinations of points on the unit circle ---- *)
Definition zsum (l : list (R * cx)) : cx :=
  fold_right (fun p acc => (fst p * fst (snd p) + fst acc, fst p * snd (snd p) + snd acc)) (0, 0) l.
Definition wsum (l : list (R * cx)) : R := fold_right (fun p acc => fst p + acc) 0 l.
Definition unit_point (z : cx) : Prop := fst z * fst z + snd z * snd z = 1.
Definition convex (l : list (R * cx)) : Prop := Forall (fun p => 0 <= fst p /\ unit_point (snd p)) l.
Definition gap (v u : R * R) : R := (fst v - fst u) * (fst v - fst u) + (snd v - snd u) * (snd v - snd u).
Lemma gap_pos v u : 0 <= gap v u.
Proof. unfold gap. assert (A := Rle_0_sqr (fst v - fst u)). assert (B := Rle_0_sqr (snd v - snd u)). unfold Rsqr in *. lra. Qed.
Lemma gap_some v u : u <> v -> 0 < gap v u.
Proof.
  destruct v as [a b], u as [c d]. unfold gap. cbn [fst snd]. intros N.
  assert (A := Rle_0_sqr (a - c)). assert (B := Rle_0_sqr (b - d)). unfold Rsqr in *.
  destruct (Req_dec (a - c) 0) as [E1|E1]; [destruct (Req_dec (b - d) 0) as [E2|E2]|].
  - exfalso. apply N. apply pair_eq; lra.
  - assert (0 < (b - d) * (b - d)) by now apply Rsqr_pos_lt. lra.
  - assert (0 < (a - c) * (a - c)) by now apply Rsqr_pos_lt. lra.
Qed.
Definition spread (v : cx) (l : list (R * cx)) : R :=
  fold_right (fun p acc => fst p * gap v (snd p) + acc) 0 l.

Lemma modulus_sq z : modulus z * modulus z = fst z * fst z + snd z * snd z.
Proof. unfold modulus. apply sqrt_sqrt. nra. Qed.
Lemma modulus_pos z : 0 <= modulus z.
Proof. apply sqrt_pos. Qed.
Lemma modulus_of x y m : 0 <= m -> x * x + y * y = m * m -> modulus (x, y) = m.
Proof. intros H E. unfold modulus. cbn [fst snd]. rewrite E. now apply sqrt_square. Qed.

Lemma wsum_pos l : convex l -> 0 <= wsum l.
Proof. induction 1 as [|p l [H _] _ IH]; unfold wsum in *; cbn [fold_right]; lra. Qed.
Lemma spread_pos v l : convex l -> 0 <= spread v l.
Proof.
  induction 1 as [|p l [H _] _ IH]; [cbn; lra|]. unfold spread in *. cbn [fold_right].
  assert (G := gap_pos v (snd p)). assert (0 <= fst p * gap v (snd p)) by now apply Rmult_le_pos. lra.
Qed.
Lemma spread_eq v l : unit_point v -> convex l -> fst v * fst (zsum l) + snd v * snd (zsum l) = wsum l - spread v l / 2.
Proof.
  intros Hv. induction 1 as [|[w [a b]] l [_ H] _ IH]; [cbn; lra|].
  unfold unit_point in *. unfold zsum, wsum, spread in *. cbn [fold_right fst snd] in *.
  match type of IH with fst v * fst ?z + _ = ?s - ?t / 2 => set (Z := z) in *; set (S := s) in *; set (T := t) in * end.
  replace (gap v (a, b)) with (2 - 2 * (fst v * a + snd v * b)) by (unfold gap; cbn [fst snd]; nra). nra.
Qed.
Lemma zsum_direction l : convex l -> exists v, unit_point v /\ modulus (zsum l) = wsum l - spread v l / 2.
Proof.
  intros P. destruct (Req_dec (modulus (zsum l)) 0) as [E|E].
  - assert (fst (zsum l) = 0 /\ snd (zsum l) = 0) as [Ea Eb].
    { assert (Q := modulus_sq (zsum l)). rewrite E in Q. split; nra. }
    exists (1, 0). assert (unit_point (1, 0)) as U by (unfold unit_point; cbn; lra). split; [exact U|].
    rewrite <- (spread_eq (1, 0)) by assumption. rewrite E, Ea, Eb. cbn. lra.
  - set (m := modulus (zsum l)) in *. assert (Q := modulus_sq (zsum l)). fold m in Q.
    exists (fst (zsum l) / m, snd (zsum l) / m). assert (unit_point (fst (zsum l) / m, snd (zsum l) / m)) as U.
    { unfold unit_point. cbn [fst snd].
      replace (fst (zsum l) / m * (fst (zsum l) / m) + snd (zsum l) / m * (snd (zsum l) / m))
        with ((fst (zsum l) * fst (zsum l) + snd (zsum l) * snd (zsum l)) / (m * m)) by (field; assumption).
      rewrite <- Q. field. assumption. }
    split; [exact U|]. rewrite <- spread_eq by assumption. cbn [fst snd].
    replace (fst (zsum l) / m * fst (zsum l) + snd (zsum l) / m * snd (zsum l))
      with ((fst (zsum l) * fst (zsum l) + snd (zsum l) * snd (zsum l)) / m) by (field; assumption).
    rewrite <- Q. field. assumption.
Qed.
Lemma zsum_le l : convex l -> modulus (zsum l) <= wsum l.
Proof. intros P. destruct (zsum_direction l P) as (v & _ & ->). assert (H := spread_pos v l P). lra. Qed.
Lemma spread_some v l p : convex l -> In p l -> 0 < fst p -> snd p <> v -> 0 < spread v l.
Proof.
  induction 1 as [|q l [H _] P IH]; [contradiction|]. intros [->|I] W N; unfold spread; cbn [fold_right]; fold (spread v l).
  - assert (0 <= spread v l) by now apply spread_pos. assert (G := gap_some v (snd p) N).
    assert (0 < fst p * gap v (snd p)) by now apply Rmult_lt_0_compat. lra.
  - specialize (IH I W N). assert (G := gap_pos v (snd q)). assert (0 <= fst q * gap v (snd q)) by now apply Rmult_le_pos. lra.
Qed.
Lemma zsum_lt l p q : convex l -> In p l -> In q l -> 0 < fst p -> 0 < fst q -> snd p <> snd q -> modulus (zsum l) < wsum l.
Proof.
  intros P Ip Iq Wp Wq N. destruct (zsum_direction l P) as (v & _ & ->).
  assert (0 < spread v l) as H; [|lra].
  destruct (Req_dec (fst (snd p)) (fst v)) as [E1|E1]; [destruct (Req_dec (snd (snd p)) (snd v)) as [E2|E2]|].
  - apply (spread_some v l q); try assumption. intros E. apply N. rewrite E. destruct (snd p), v. cbn in *. now subst.
  - apply (spread_some v l p); try assumption. intros E. apply E2. now rewrite E.
  - apply (spread_some v l p); try assumption. intros E. apply E1. now rewrite E.
Qed.
Lemma zsum_app a b : zsum (a ++ b) = cadd K (zsum a) (zsum b).
Proof.
  induction a as [|p a IH]; cbn [app].
  - cbn. destruct (zsum b) as [x y]. cbn. pairs; ring.
  - unfold zsum in *. cbn [fold_right]. rewrite IH. cbn. pairs; ring.
Qed.
Lemma wsum_app a b : wsum (a ++ b) = wsum a + wsum b.
Proof. induction a as [|p a IH]; unfold wsum in *; cbn [app fold_right]; [lra|]. rewrite IH. lra. Qed.
Definition flip (l : list (R * cx)) : list (R * cx) := map (fun p => (fst p, conjugate (snd p))) l.
Lemma zsum_flip l : modulus (zsum (flip l)) = modulus (zsum l).
Proof.
  assert (zsum (flip l) = conjugate (zsum l)) as ->.
  { induction l as [|p l IH]; [cbn; unfold conjugate; cbn; pairs; ring|]. unfold zsum, flip in *. cbn [map fold_right]. rewrite IH.
    unfold conjugate. cbn. pairs; ring. }
  unfold modulus, conjugate. cbn [fst snd]. f_equal. ring.
Qed.
Lemma zsum_ones l : Forall (fun p => snd p = (1, 0)) l -> zsum l = (wsum l, 0).
Proof.
  induction 1 as [|[w u] l E _ IH]; [reflexivity|]. cbn [snd] in E. subst u. unfold zsum, wsum in *. cbn [fold_right fst snd].
  rewrite IH. cbn. pairs; ring.
Qed.

(* ---- complex exponentials ---- *)
Lemma e_unit q : unit_point (e q).
Proof. unfold unit_point. cbn. assert (H := sin2_cos2 (2 * PI * Q2R (this q))). unfold Rsqr in H. lra. Qed.
Lemma Q2R_Qc_opp q : Q2R (this (- q)%Qc) = - Q2R (this q).
Proof.
  assert (Q2R (this (- q + q)%Qc) = 0) as H.
  { transitivity (Q2R (this (Qc_of_Z 0))); [|rewrite Q2R_Qc_of_Z; reflexivity]. do 2 f_equal.
    transitivity 0%Qc; [ring|reflexivity]. }
  rewrite Q2R_Qc_plus in H. lra.
Qed.
Lemma e_opp q : e (- q)%Qc = conjugate (e q).
Proof.
  unfold conjugate. cbn [cexp complex_reals fst snd]. rewrite Q2R_Qc_opp.
  replace (2 * PI * - Q2R (this q)) with (- (2 * PI * Q2R (this q))) by ring. rewrite cos_neg, sin_neg. reflexivity.
Qed.
Lemma conj_mul a b : conjugate (cmul K a b) = cmul K (conjugate a) (conjugate b).
Proof. unfold conjugate. cbn. pairs; ring. Qed.
Lemma conj_sum n g : conjugate (sum n g) = sum n (fun i => conjugate (g i)).
Proof.
  induction n as [|n IH]; [cbn; unfold conjugate; cbn; pairs; ring|]. cbn [csum]. rewrite <- IH. unfold conjugate. cbn. pairs; ring.
Qed.
Lemma Qc_of_real_int q z : Q2R (this q) = IZR z -> q = Qc_of_Z z.
Proof. rewrite <- Q2R_Qc_of_Z. intros H. apply Qc_is_canon. now apply eqR_Qeq. Qed.
Lemma e_same p q : e p = e q -> exists z, (p - q)%Qc = Qc_of_Z z.
Proof.
  intros H. assert (e (p - q)%Qc = (1, 0)) as E.
  { unfold Qcminus. rewrite cx_exp_add, e_opp, H. assert (U := e_unit q). unfold unit_point in U.
    unfold conjugate. destruct (e q) as [a b]. cbn in *. pairs; lra. }
  cbn [cexp complex_reals] in E. injection E as E _. apply cos_one_int in E as [z E]. exists z. now apply Qc_of_real_int.
Qed.

(* ---- sums ---- *)
Lemma total_S n f : total (S n) f = total n f + f n.
Proof.
  unfold total. rewrite seq_S, map_app, fold_right_app. cbn [map fold_right Nat.add]. rewrite Rplus_0_r.
  generalize (map f (seq 0 n)). intros l. induction l as [|x l IH]; cbn; [lra|]. rewrite IH. lra.
Qed.
Lemma rsum_total n f : rsum n f = total n f.
Proof. induction n as [|n IH]; [reflexivity|]. rewrite total_S, <- IH. reflexivity. Qed.
Lemma rsum_ext n f g : (forall i, (i < n)%nat -> f i = g i) -> rsum n f = rsum n g.
Proof. induction n as [|n IH]; intros H; [reflexivity|]. cbn. rewrite IH by (intros; apply H; lia). now rewrite H by lia. Qed.
Lemma total_ext n f g : (forall i, (i < n)%nat -> f i = g i) -> total n f = total n g.
Proof. rewrite <- !rsum_total. apply rsum_ext. Qed.
Lemma csum_parts n (g : nat -> cx) : sum n g = (rsum n (fun i => fst (g i)), rsum n (fun i => snd (g i))).
Proof. induction n as [|n IH]; [reflexivity|]. cbn [csum rsum]. rewrite IH. reflexivity. Qed.
Definition weighted (n : nat) (w : nat -> R) (u : nat -> cx) : list (R * cx) := map (fun k => (w k, u k)) (seq 0 n).
Lemma weighted_S n w u : weighted (S n) w u = weighted n w u ++ [(w n, u n)].
Proof. unfold weighted. now rewrite seq_S, map_app. Qed.
Lemma zsum_weighted n w u : zsum (weighted n w u) = sum n (fun k => cmul K (w k, 0) (u k)).
Proof.
  induction n as [|n IH]; [reflexivity|]. rewrite weighted_S, zsum_app, IH. cbn [csum]. f_equal. cbn. pairs; ring.
Qed.
Lemma wsum_weighted n w u : wsum (weighted n w u) = rsum n w.
Proof. induction n as [|n IH]; [reflexivity|]. rewrite weighted_S, wsum_app, IH. cbn. lra. Qed.
Lemma weighted_positive n w u : (forall k, (k < n)%nat -> 0 <= w k /\ unit_point (u k)) -> convex (weighted n w u).
Proof. intros H. apply Forall_forall. intros p Ip. apply in_map_iff in Ip as (k & <- & Ik). apply in_seq in Ik. apply H. lia. Qed.
Lemma weighted_in n w u k : (k < n)%nat -> In (w k, u k) (weighted n w u).
Proof. intros H. apply in_map_iff. exists k. split; [reflexivity|]. apply in_seq. lia. Qed.
(* rows after each other *)
Fixpoint grid_weighted (r c : nat) (w : nat -> nat -> R) (u : nat -> nat -> cx) : list (R * cx) :=
  match r with O => [] | S r' => grid_weighted r' c w u ++ weighted c (w r') (u r') end.
Lemma zsum_grid r c w u : zsum (grid_weighted r c w u) = sum r (fun k => sum c (fun l => cmul K (w k l, 0) (u k l))).
Proof. induction r as [|r IH]; [reflexivity|]. cbn [grid_weighted]. rewrite zsum_app, IH, zsum_weighted. reflexivity. Qed.
Lemma wsum_grid r c w u : wsum (grid_weighted r c w u) = rsum r (fun k => rsum c (w k)).
Proof. induction r as [|r IH]; [reflexivity|]. cbn [grid_weighted]. rewrite wsum_app, IH, wsum_weighted. reflexivity. Qed.
Lemma grid_in r c w u k l : (k < r)%nat -> (l < c)%nat -> In (w k l, u k l) (grid_weighted r c w u).
Proof.
  intros Hk Hl. induction r as [|r IH]; [lia|]. cbn [grid_weighted]. apply in_or_app.
  destruct (Nat.eq_dec k r) as [->|N]; [right; now apply weighted_in|left; apply IH; lia].
Qed.
Lemma grid_positive r c w u : (forall k l, (k < r)%nat -> (l < c)%nat -> 0 <= w k l /\ unit_point (u k l)) -> convex (grid_weighted r c w u).
Proof.
  induction r as [|r IH]; intros H; [constructor|]. cbn [grid_weighted]. apply Forall_app. split; [apply IH; intros; apply H; lia|].
  apply weighted_positive. intros l Hl. apply H; lia.
Qed.
Lemma flip_weighted n w u : flip (weighted n w u) = weighted n w (fun k => conjugate (u k)).
Proof. unfold flip, weighted. now rewrite map_map. Qed.
Lemma flip_grid r c w u : flip (grid_weighted r c w u) = grid_weighted r c w (fun k l => conjugate (u k l)).
Proof.
  induction r as [|r IH]; [reflexivity|]. cbn [grid_weighted]. unfold flip in *. rewrite map_app, IH. f_equal. apply flip_weighted.
Qed.
Lemma weighted_ext n w w' u u' : (forall k, (k < n)%nat -> w k = w' k /\ u k = u' k) -> weighted n w u = weighted n w' u'.
Proof.
  intros H. unfold weighted. apply map_ext_in. intros k Ik. apply in_seq in Ik. destruct (H k ltac:(lia)) as [-> ->]. reflexivity.
Qed.

(* ---- the greatest value ---- *)
Lemma below_spec a b : Bool.reflect (a < b) (below a b).
Proof. unfold below. destruct (Rlt_dec a b); constructor; assumption. Qed.
Lemma best_from_keep l : forall i b, (forall v, In v l -> v <= snd b) -> best_from i b l = b.
Proof.
  induction l as [|v l IH]; intros i b H; [reflexivity|]. cbn [best_from].
  destruct (below_spec (snd b) v) as [B|B]; [specialize (H v (or_introl eq_refl)); lra|]. apply IH. intros x I. apply H. now right.
Qed.
Lemma best_from_at l : forall i b k, (k < length l)%nat -> snd b < nth k l 0 ->
  (forall j, (j < k)%nat -> nth j l 0 < nth k l 0) -> (forall j, (j < length l)%nat -> nth j l 0 <= nth k l 0) ->
  best_from i b l = ((i + k)%nat, nth k l 0).
Proof.
  induction l as [|v l IH]; intros i b k Hk Hb Hlt Hle; [cbn in Hk; lia|]. cbn [best_from]. destruct k as [|k].
  - cbn [nth] in *. destruct (below_spec (snd b) v) as [B|B]; [|lra]. rewrite Nat.add_0_r. apply best_from_keep.
    intros x I. apply (In_nth _ _ 0) in I as (j & Hj & <-). exact (Hle (S j) ltac:(cbn; lia)).
  - rewrite (IH (S i) _ k); [f_equal; lia|cbn in Hk; lia| | |].
    + destruct (below (snd b) v); [|exact Hb]. exact (Hlt 0%nat ltac:(lia)).
    + intros j Hj. exact (Hlt (S j) ltac:(lia)).
    + intros j Hj. exact (Hle (S j) ltac:(cbn; lia)).
Qed.
Lemma greatest_at l k : (k < length l)%nat -> (forall j, (j < k)%nat -> nth j l 0 < nth k l 0) ->
  (forall j, (j < length l)%nat -> nth j l 0 <= nth k l 0) -> greatest l = Ok (k, nth k l 0).
Proof.
  intros Hk Hlt Hle. destruct l as [|v l]; [cbn in Hk; lia|]. unfold greatest. destruct k as [|k].
  - f_equal. apply best_from_keep. cbn [snd]. intros x I. apply (In_nth _ _ 0) in I as (j & Hj & <-). exact (Hle (S j) ltac:(cbn; lia)).
  - rewrite (best_from_at l 1 _ k); [reflexivity|cbn in Hk; lia| | |].
    + cbn [snd]. exact (Hlt 0%nat ltac:(lia)).
    + intros j Hj. exact (Hlt (S j) ltac:(lia)).
    + intros j Hj. exact (Hle (S j) ltac:(cbn; lia)).
Qed.
Lemma best_from_bound l : forall i b, fst (best_from i b l) = fst b \/ (i <= fst (best_from i b l) < i + length l)%nat.
Proof.
  induction l as [|v l IH]; intros i b; [now left|]. cbn [best_from length]. specialize (IH (S i) (if below (snd b) v then (i, v) else b)).
  destruct IH as [IH|IH]; [|right; lia]. rewrite IH. destruct (below (snd b) v); [right; cbn; lia|now left].
Qed.
Lemma greatest_total l : l <> [] -> exists k m, greatest l = Ok (k, m) /\ (k < length l)%nat.
Proof.
  destruct l as [|v l]; [congruence|]. intros _. unfold greatest. destruct (best_from 1 (0%nat, v) l) as [k m] eqn:E. exists k, m.
  split; [reflexivity|]. assert (H := best_from_bound l 1 (0%nat, v)). rewrite E in H. cbn [fst length] in *. lia.
Qed.

Lemma ftmodulus_pos z : 0 < ftmodulus z.
Proof.
  unfold ftmodulus. destruct (below_spec (modulus z) (/ 10 ^ 20)) as [B|B]; [lra|].
  assert (0 < / 10 ^ 20) by (apply Rinv_0_lt_compat; apply pow_lt; lra). lra.
Qed.
Lemma tiny : / 10 ^ 20 < 1.
Proof.
  assert (1 < 10 ^ 20) by (apply Rlt_pow_R1; [lra|lia]). rewrite <- Rinv_1. apply Rinv_lt_contravar; lra.
Qed.
Lemma ftmodulus_big z : 1 < modulus z -> ftmodulus z = modulus z.
Proof. intros H. unfold ftmodulus. destruct (below_spec (modulus z) (/ 10 ^ 20)) as [B|B]; [assert (T := tiny); lra|reflexivity]. Qed.
Lemma ftmodulus_lt z m : modulus z < m -> 1 < m -> ftmodulus z < m.
Proof. intros H G. unfold ftmodulus. destruct (below (modulus z) (/ 10 ^ 20)); assumption. Qed.
Lemma ftmodulus_le z m : modulus z <= m -> 1 < m -> ftmodulus z <= m.
Proof. intros H G. unfold ftmodulus. destruct (below (modulus z) (/ 10 ^ 20)); lra. Qed.
Lemma ftmodulus_eq z z' : modulus z = modulus z' -> ftmodulus z = ftmodulus z'.
Proof. unfold ftmodulus. now intros ->. Qed.
Lemma other_reference mem cval st q st2 q1 : set_reference mem cval st q false = Ok st2 ->
  exists s a, set_reference mem cval st2 q1 true = Ok s /\ set_reference mem cval st q1 true = Ok a /\ fixedft s = fixedft a /\ movingft s = movingft a.
Proof.
  unfold set_reference. destruct (fft_handle_missing mem cval q) as [f|e]; cbn [bind]; [|discriminate]. intros H.
  assert (st2 = {| fixedft := Some f; movingft := movingft st |}) as -> by (inversion H; reflexivity). do 2 eexists. split; [reflexivity|]. split; [reflexivity|]. cbn. repeat split.
Qed.
