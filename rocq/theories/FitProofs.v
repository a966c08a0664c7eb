From Verif Require Import BaseProofs MatModel MatProofs FitModel FitSpec.
Local Open Scope Qc_scope.

Lemma times_ok x y : length x = length y -> times x y = Ok (map (fun p => fst p * snd p) (combine x y)).
Proof. intros H. unfold times. now rewrite H, Nat.eqb_refl. Qed.
Lemma times_err x y : length x <> length y -> times x y = Err ValueError.
Proof. intros H. unfold times. now destruct (Nat.eqb_spec (length x) (length y)). Qed.

Definition sxy (x y : list Qc) := qsum (map (fun p => fst p * snd p) (combine x y)).
Lemma qlen_cons {A} (a : A) l : qlen (a :: l) = qlen l + 1.
Proof. unfold qlen. cbn [length]. rewrite Nat2Z.inj_succ. unfold Z.succ. now rewrite Qc_of_Z_plus. Qed.
Lemma qlen_nil {A} : qlen (@nil A) = 0.
Proof. reflexivity. Qed.
Lemma ssr_expand x y m b : length x = length y ->
  ssr x y m b = sxy y y + m * m * sxy x x + qlen x * (b * b) + Qc_of_Z 2 * (m * b * qsum x) - Qc_of_Z 2 * (m * sxy x y) - Qc_of_Z 2 * (b * qsum y).
Proof.
  revert y. induction x as [|a x IH]; intros [|c y] H; try discriminate.
  - unfold ssr, sxy. cbn. change (qlen (@nil Qc)) with 0. ring.
  - unfold ssr, sxy in *. cbn [combine map qsum fold_right fst snd]. fold (qsum x) (qsum y).
    cbn in H. injection H as H. specialize (IH y H). unfold qsum in *. rewrite IH, qlen_cons.
    change (Qc_of_Z 2) with (1 + 1). ring.
Qed.

Lemma square_nonneg (a : Qc) : 0 <= a * a.
Proof. qcnra. Qed.
Lemma square_zero (a : Qc) : a * a = 0 -> a = 0.
Proof. intros H. apply Qcmult_integral in H. tauto. Qed.
Lemma qsum_nonneg l : (forall q, In q l -> 0 <= q) -> 0 <= qsum l.
Proof.
  induction l as [|a l IH]; intros H; [cbn; apply Qcle_refl|]. cbn. assert (0 <= a) by (apply H; now left).
  assert (0 <= qsum l) by (apply IH; intros; apply H; now right). unfold qsum in *. qclra.
Qed.
Lemma qsum_zero_all l : (forall q, In q l -> 0 <= q) -> qsum l = 0 -> forall q, In q l -> q = 0.
Proof.
  induction l as [|a l IH]; intros H E q Hq; [easy|].
  assert (0 <= a) by (apply H; now left). assert (0 <= qsum l) by (apply qsum_nonneg; intros; apply H; now right).
  cbn in E. fold (qsum l) in E. assert (a = 0) by qclra. assert (qsum l = 0) by qclra.
  destruct Hq as [->|Hq]; [assumption|]. apply IH; auto. intros; apply H; now right.
Qed.
(* sum of (p x + q)^2 *)
Definition squares (x : list Qc) (p q : Qc) : Qc := qsum (map (fun a => (p * a + q) * (p * a + q)) x).
Lemma squares_expand x p q : squares x p q = p * p * sxy x x + Qc_of_Z 2 * (p * q * qsum x) + qlen x * (q * q).
Proof.
  unfold squares, sxy. induction x as [|a x IH]; [cbn; change (qlen (@nil Qc)) with 0; ring|].
  cbn [map combine qsum fold_right fst snd]. fold (qsum x). unfold qsum in *. rewrite IH, qlen_cons. change (Qc_of_Z 2) with (1 + 1). ring.
Qed.
Lemma squares_nonneg x p q : 0 <= squares x p q.
Proof. apply qsum_nonneg. intros r Hr. apply in_map_iff in Hr as [a [<- _]]. apply square_nonneg. Qed.
Lemma squares_zero x p q : squares x p q = 0 -> forall a, In a x -> p * a + q = 0.
Proof.
  intros H a Ha. apply square_zero. apply (qsum_zero_all _ ) with (q := (p * a + q) * (p * a + q)) in H; [assumption| |].
  - intros r Hr. apply in_map_iff in Hr as [c [<- _]]. apply square_nonneg.
  - apply in_map_iff. now exists a.
Qed.
Definition denom (x : list Qc) : Qc := qlen x * sxy x x - qsum x * qsum x.
Lemma denom_squares x : qlen x * denom x = squares x (qlen x) (- qsum x).
Proof. rewrite squares_expand. unfold denom. change (Qc_of_Z 2) with (1 + 1). ring. Qed.
Lemma qlen_pos {A} (x : list A) : x <> [] -> 0 < qlen x.
Proof. intros H. unfold qlen. change 0 with (Qc_of_Z 0). apply Qc_of_Z_lt. destruct x; [contradiction|]. cbn [length]. lia. Qed.
Lemma qlen_ne {A} (x : list A) : x <> [] -> qlen x <> 0.
Proof. intros H. apply qlen_pos in H. intros E. rewrite E in H. qclra. Qed.
Lemma denom_varied x : denom x <> 0 <-> varied x.
Proof.
  destruct x as [|a0 x0].
  { split; [intros H; exfalso; apply H; unfold denom, sxy; cbn; change (qlen (@nil Qc)) with 0; ring|intros (a & b & [] & _)]. }
  set (x := a0 :: x0). assert (x <> []) as Hn by (unfold x; discriminate). split.
  - intros H.
    (* either all equal to a0 or some other *)
    assert ((forall a, In a x -> a = a0) \/ exists b, In b x /\ b <> a0) as [Ha|[b [Hb Hne]]].
    { clear. assert (forall l : list Qc, (forall a, In a l -> a = a0) \/ exists b, In b l /\ b <> a0) as G.
      { induction l as [|c l [IH|[b [Hb Hne]]]]; [left; easy| |right; exists b; split; [now right|assumption]].
        destruct (Qc_eq_or c a0) as [->|Hc]; [left; intros a [<-|Ha]; auto|right; exists c; split; [now left|assumption]]. }
      apply G. }
    + exfalso. apply H. assert (forall l, (forall a, In a l -> a = a0) -> sxy l l = qlen l * (a0 * a0) /\ qsum l = qlen l * a0) as G.
      { unfold sxy. induction l as [|c l IH]; intros Hl; [cbn; change (qlen (@nil Qc)) with 0; split; ring|].
        destruct IH as [I1 I2]; [intros; apply Hl; now right|]. rewrite (Hl c) by now left.
        cbn [map combine qsum fold_right fst snd]. unfold qsum in *. rewrite I1, I2, qlen_cons. split; ring. }
      destruct (G x Ha) as [G1 G2]. unfold denom. rewrite G1, G2. ring.
    + exists b, a0. split; [assumption|]. split; [now left|assumption].
  - intros (a & b & Ha & Hb & Hne) E. apply Hne.
    assert (squares x (qlen x) (- qsum x) = 0) as S0 by (rewrite <- denom_squares, E; ring).
    assert (Ea := squares_zero _ _ _ S0 a Ha). assert (Eb := squares_zero _ _ _ S0 b Hb).
    assert (qlen x * (a - b) = 0) as Z0 by (replace (qlen x * (a - b)) with ((qlen x * a + - qsum x) - (qlen x * b + - qsum x)) by ring; rewrite Ea, Eb; ring).
    apply Qcmult_integral in Z0 as [Z0|Z0]; [now apply qlen_ne in Z0|]. replace a with (a - b + b) by ring. rewrite Z0. ring.
Qed.
Lemma denom_nonneg x : 0 <= denom x.
Proof.
  destruct x as [|a x]; [unfold denom, sxy; cbn; change (qlen (@nil Qc)) with 0; qclra|].
  assert (H := qlen_pos (a :: x) ltac:(discriminate)). assert (S := squares_nonneg (a :: x) (qlen (a :: x)) (- qsum (a :: x))).
  rewrite <- denom_squares in S. set (n := qlen _) in *. set (d := denom _) in *. clearbody n d.
  destruct (Qclt_le_dec d 0) as [E|E]; [|assumption]. exfalso. qcnra.
Qed.

Lemma linfit2_eq x y : length x = length y ->
  linfit2 x y false = Ok (fdiv (qlen x * sxy x y - qsum x * qsum y) (denom x), fdiv (sxy x x * qsum y - qsum x * sxy x y) (denom x)).
Proof. intros H. unfold linfit2. rewrite (times_ok x y H), (times_ok x x eq_refl). reflexivity. Qed.
Lemma fdiv_some a b q : fdiv a b = Some q -> b <> 0 /\ q = a / b.
Proof. unfold fdiv. destruct (Qc_eqb b 0) eqn:E; [discriminate|]. qc_bool. now intros [= <-]. Qed.
Lemma fdiv_ok a b : b <> 0 -> fdiv a b = Some (a / b).
Proof. intros H. unfold fdiv. destruct (Qc_eqb b 0) eqn:E; [qc_bool; contradiction|reflexivity]. Qed.
Lemma fdiv_zero a : fdiv a 0 = None.
Proof. reflexivity. Qed.
Lemma not_true_varied x : ~ varied x -> denom x = 0.
Proof. intros H. destruct (Qc_eq_or (denom x) 0) as [|E]; [assumption|]. apply denom_varied in E. contradiction. Qed.

Lemma fit_defined x y : length x = length y ->
  (varied x -> exists m b, linfit2 x y false = Ok (Some m, Some b)) /\
  (~ varied x -> linfit2 x y false = Ok (None, None)).
Proof.
  intros H. rewrite linfit2_eq by assumption. split; intros Hv.
  - apply denom_varied in Hv. rewrite !fdiv_ok by assumption. eauto.
  - rewrite not_true_varied by assumption. now rewrite !fdiv_zero.
Qed.
Lemma fit_refused x y v : (v = true -> linfit2 x y v = Err NotImplementedError) /\
  (length x <> length y -> linfit2 x y false = Err ValueError).
Proof. split; [now intros ->|]. intros H. unfold linfit2. now rewrite times_err. Qed.

Lemma ssr_diff x y m b m' b' : length x = length y -> linfit2 x y false = Ok (Some m, Some b) ->
  ssr x y m' b' = ssr x y m b + squares x (m' - m) (b' - b).
Proof.
  intros H. rewrite linfit2_eq by assumption. intros [= E1 E2]. apply fdiv_some in E1 as [Hd E1]. apply fdiv_some in E2 as [_ E2].
  rewrite !ssr_expand, squares_expand by assumption. unfold denom in *. change (Qc_of_Z 2) with (1 + 1).
  set (Sxx := sxy x x) in *. set (Sxy := sxy x y) in *. set (Syy := sxy y y) in *. set (Sx := qsum x) in *. set (Sy := qsum y) in *. set (n := qlen x) in *.
  assert (m * Sxx + b * Sx = Sxy) as N1 by (rewrite E1, E2; field; assumption).
  assert (m * Sx + n * b = Sy) as N2 by (rewrite E1, E2; field; assumption).
  rewrite <- N1, <- N2. ring.
Qed.
Lemma fit_optimal x y m b : length x = length y -> linfit2 x y false = Ok (Some m, Some b) ->
  forall m' b', ssr x y m b <= ssr x y m' b' /\ (ssr x y m' b' <= ssr x y m b -> m' = m /\ b' = b).
Proof.
  intros H HF m' b'. rewrite (ssr_diff x y m b m' b') by assumption. assert (S := squares_nonneg x (m' - m) (b' - b)).
  split; [qclra|]. intros HL. assert (squares x (m' - m) (b' - b) = 0) as S0 by qclra.
  assert (varied x) as (p & q & Hp & Hq & Hne).
  { apply denom_varied. rewrite linfit2_eq in HF by assumption. injection HF as E1 _. now apply fdiv_some in E1. }
  assert (Ep := squares_zero _ _ _ S0 p Hp). assert (Eq := squares_zero _ _ _ S0 q Hq).
  assert ((m' - m) * (p - q) = 0) as Z0.
  { replace ((m' - m) * (p - q)) with (((m' - m) * p + (b' - b)) - ((m' - m) * q + (b' - b))) by ring. rewrite Ep, Eq. ring. }
  apply Qcmult_integral in Z0 as [Z0|Z0].
  - rewrite Z0 in Ep. split; [replace m' with (m' - m + m) by ring; rewrite Z0; ring|].
    replace b' with (0 * p + (b' - b) + b) by ring. rewrite Ep. ring.
  - exfalso. apply Hne. replace p with (p - q + q) by ring. rewrite Z0. ring.
Qed.
Lemma fit_line x y m b : length x = length y -> varied x -> (forall p, In p (combine x y) -> snd p = m * fst p + b) ->
  linfit2 x y false = Ok (Some m, Some b).
Proof.
  intros H Hv HL. destruct (proj1 (fit_defined x y H) Hv) as (m' & b' & HF). rewrite HF.
  assert (ssr x y m b = 0) as Z0.
  { unfold ssr. clear - HL. induction (combine x y) as [|p l IH]; [reflexivity|]. cbn [map qsum fold_right].
    fold (qsum (map (fun p0 => (snd p0 - (m * fst p0 + b)) * (snd p0 - (m * fst p0 + b))) l)).
    rewrite (HL p) by now left. rewrite IH by (intros; apply HL; now right). ring. }
  assert (0 <= ssr x y m' b') as P.
  { apply qsum_nonneg. intros r Hr. apply in_map_iff in Hr as [a [<- _]]. apply square_nonneg. }
  destruct (fit_optimal x y m' b' H HF m b) as [_ HU]. destruct HU as [-> ->]; [rewrite Z0; assumption|reflexivity].
Qed.

(* through the origin *)
Lemma fit0_eq x y : length x = length y -> linfit_zerointercept2 x y = Ok (fdiv (sxy x y) (sxy x x)).
Proof. intros H. unfold linfit_zerointercept2. rewrite (times_ok x y H), (times_ok x x eq_refl). reflexivity. Qed.
Lemma sxx_zero x : sxy x x = 0 <-> (forall a, In a x -> a = 0).
Proof.
  assert (sxy x x = squares x 1 0) as E by (rewrite squares_expand; ring). rewrite E. split.
  - intros H a Ha. assert (K := squares_zero _ _ _ H a Ha). replace a with (1 * a + 0) by ring. exact K.
  - intros H. unfold squares. induction x as [|a x IH]; [reflexivity|]. cbn [map qsum fold_right].
    unfold qsum in *. rewrite IH; [|rewrite squares_expand; ring|intros; apply H; now right]. rewrite (H a) by now left. ring.
Qed.
Lemma fit0_defined x y : length x = length y ->
  ((exists a, In a x /\ a <> 0) -> exists m, linfit_zerointercept2 x y = Ok (Some m)) /\
  ((forall a, In a x -> a = 0) -> linfit_zerointercept2 x y = Ok None).
Proof.
  intros H. rewrite fit0_eq by assumption. split.
  - intros [a [Ha Hne]]. rewrite fdiv_ok; [eauto|]. intros E. apply Hne. now apply (sxx_zero x).
  - intros Hz. apply sxx_zero in Hz. now rewrite Hz.
Qed.
Lemma ssr0_diff x y m m' : length x = length y -> linfit_zerointercept2 x y = Ok (Some m) ->
  ssr x y m' 0 = ssr x y m 0 + squares x (m' - m) 0.
Proof.
  intros H. rewrite fit0_eq by assumption. intros [= E1]. apply fdiv_some in E1 as [Hd E1].
  rewrite !ssr_expand, squares_expand by assumption. change (Qc_of_Z 2) with (1 + 1).
  assert (sxy x y = m * sxy x x) as -> by (rewrite E1; field; assumption). ring.
Qed.
Lemma fit0_optimal x y m : length x = length y -> linfit_zerointercept2 x y = Ok (Some m) ->
  forall m', ssr x y m 0 <= ssr x y m' 0 /\ (ssr x y m' 0 <= ssr x y m 0 -> m' = m).
Proof.
  intros H HF m'. rewrite (ssr0_diff x y m m') by assumption. assert (S := squares_nonneg x (m' - m) 0).
  split; [qclra|]. intros HL. assert (squares x (m' - m) 0 = 0) as S0 by qclra.
  rewrite fit0_eq in HF by assumption. injection HF as E1. apply fdiv_some in E1 as [Hd _].
  destruct (Qc_eq_or (m' - m) 0) as [E|E]; [replace m' with (m' - m + m) by ring; rewrite E; ring|]. exfalso. apply Hd.
  apply sxx_zero. intros a Ha. assert (K := squares_zero _ _ _ S0 a Ha).
  assert ((m' - m) * a = 0) as Z0 by (rewrite <- K; ring). apply Qcmult_integral in Z0. tauto.
Qed.

(* points with a nan are left out *)
Lemma nan_removed x y : length x = length y -> xyremovenan x y =
  Ok (map fst (flat_map (fun p => match p with (Some a, Some b) => [(a, b)] | _ => [] end) (combine x y)),
      map snd (flat_map (fun p => match p with (Some a, Some b) => [(a, b)] | _ => [] end) (combine x y))).
Proof.
  intros H. unfold xyremovenan. rewrite H, Nat.eqb_refl. f_equal.
  induction (flat_map _ _) as [|[a b] l IH]; [reflexivity|]. cbn. rewrite IH. reflexivity.
Qed.
Lemma nan_fit x y x' y' : without_nan x y x' y' ->
  length x = length y /\ length x' = length y' /\ forall v, nanlinfit2 x y v = linfit2 x' y' v.
Proof.
  intros W. assert (length x = length y /\ length x' = length y' /\ xyremovenan x y = Ok (x', y')) as (H1 & H2 & H3).
  { assert (length x = length y) as HL by (induction W; cbn; congruence).
    split; [assumption|]. split; [clear HL; induction W; cbn; congruence|]. rewrite nan_removed by assumption. clear HL. f_equal.
    induction W as [|a b x y x' y' W IH|o x y x' y' W IH|o x y x' y' W IH]; [reflexivity| | |];
      cbn [combine flat_map map fst snd app]; try destruct o; cbn [flat_map map fst snd app];
      injection IH as E1 E2; cbn [app]; rewrite ?E1, ?E2; cbn [map app fst snd]; try reflexivity; f_equal; f_equal; assumption. }
  repeat split; try assumption. intros v. unfold nanlinfit2. now rewrite H3.
Qed.
Lemma ok_pair_eq (r : result (option Qc * option Qc)) p q :
  match r with Ok (Some a, Some b) => Qc_eqb a p && Qc_eqb b q | _ => false end = true -> r = Ok (Some p, Some q).
Proof. destruct r as [[[a|] [b|]]|]; try discriminate. intros H. apply andb_prop in H as [H1 H2]. qc_bool. now subst. Qed.
Lemma ok_some_eq (r : result (option Qc)) p : match r with Ok (Some a) => Qc_eqb a p | _ => false end = true -> r = Ok (Some p).
Proof. destruct r as [[a|]|]; try discriminate. intros H. qc_bool. now subst. Qed.
