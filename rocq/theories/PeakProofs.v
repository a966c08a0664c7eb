From Verif Require Import MatProofs PeakModel PeakSpec.
Local Open Scope Qc_scope.

(* ---- the solver ---- *)
Lemma cramer_ok A n b : shp A = [n; n] -> length b = n -> det n (entries A) <> 0 ->
  exists x, cramer A b = Ok x /\ length x = n /\
    (forall i, (i < n)%nat -> qsumn n (fun k => elt A [i; k] * nth k x 0) = nth i b 0) /\
    forall x', length x' = n -> (forall i, (i < n)%nat -> qsumn n (fun k => elt A [i; k] * nth k x' 0) = nth i b 0) -> x' = x.
Proof.
  intros HA Hb Hd. unfold cramer. rewrite HA, Nat.eqb_refl. cbn [negb].
  destruct (Qc_eqb _ 0) eqn:E; [qc_bool; contradiction|]. clear E. rewrite Hb, Nat.eqb_refl. cbn [bind].
  set (x := map _ _). assert (length x = n) as HL by (unfold x; now rewrite map_length, seq_length).
  assert (forall k, (k < n)%nat -> nth k x 0 = det n (setcol (entries A) k (fun i => nth i b 0)) / det n (entries A)) as HX.
  { intros k Hk. unfold x. rewrite (nth_indep _ 0 ((fun i => det n (setcol (entries A) i (fun i => nth i b 0)) / det n (entries A)) 0%nat)) by (now rewrite map_length, seq_length).
    rewrite (map_nth (fun i => det n (setcol (entries A) i (fun i => nth i b 0)) / det n (entries A))). now rewrite seq_nth. }
  exists x. split; [reflexivity|]. split; [assumption|]. split.
  - intros i Hi. assert (S := cramer_solves n (entries A) (fun i => nth i b 0) Hd i Hi).
    rewrite <- S. apply qsumn_ext. intros k Hk. now rewrite HX.
  - intros x' HL' S. apply (nth_ext _ _ 0 0); [congruence|]. intros k Hk. rewrite HX by congruence.
    apply (solution_unique n (entries A) (fun i => nth i b 0) (fun k => nth k x' 0) Hd S). congruence.
Qed.
Lemma cramer_singular A n b : shp A = [n; n] -> det n (entries A) = 0 ->
  cramer A b = Err RuntimeError /\
  exists x, (exists k, (k < n)%nat /\ x k <> 0) /\ forall i, (i < n)%nat -> qsumn n (fun k => elt A [i; k] * x k) = 0.
Proof.
  intros HA Hd. split.
  - unfold cramer. rewrite HA, Nat.eqb_refl. cbn [negb]. rewrite Hd. reflexivity.
  - exact (singular n (entries A) Hd).
Qed.
(* which systems are refused, in terms of solutions *)
Lemma cramer_decides A n b : shp A = [n; n] -> length b = n ->
  (cramer A b = Err RuntimeError <->
    exists x, (exists k, (k < n)%nat /\ x k <> 0) /\ forall i, (i < n)%nat -> qsumn n (fun k => elt A [i; k] * x k) = 0).
Proof.
  intros HA Hb. split.
  - intros HE. destruct (Qc_eq_or (det n (entries A)) 0) as [Hd|Hd]; [now apply (cramer_singular A n b HA)|].
    destruct (cramer_ok A n b HA Hb Hd) as (x & E & _). congruence.
  - intros (x & (k & Hk & Hx) & S). destruct (Qc_eq_or (det n (entries A)) 0) as [Hd|Hd]; [now apply (cramer_singular A n b HA)|].
    exfalso. apply Hx. now apply (kernel_trivial n (entries A) x Hd S).
Qed.
Lemma cramer_rejects A b :
  ((forall n, shp A <> [n; n]) -> cramer A b = Err LinAlgError) /\
  (forall n, shp A = [n; n] -> det n (entries A) <> 0 -> (n <> 0)%nat -> length b <> n -> length b <> 1%nat -> cramer A b = Err ValueError).
Proof.
  split.
  - intros H. unfold cramer. destruct (shp A) as [|p [|q [|]]]; try reflexivity.
    destruct (Nat.eqb_spec p q) as [->|]; [|reflexivity]. now destruct (H q).
  - intros n HA Hd Hn H1 H2. unfold cramer. rewrite HA, Nat.eqb_refl. cbn [negb].
    destruct (Qc_eqb _ 0) eqn:E; [qc_bool; contradiction|].
    apply Nat.eqb_neq in H1, H2, Hn. rewrite H1, H2, Hn. reflexivity.
Qed.

(* ---- fractions and ratios ---- *)
Lemma cramer3 r1 r2 r3 c1 c2 c3 w1 w2 w3 :
  c1 <> 0 -> c2 <> 0 -> c3 <> 0 -> 1 + (r1 / c1 + r2 / c2 + r3 / c3) <> 0 ->
  r1 * (w1 + w2 + w3) + c1 * w1 = r1 -> r2 * (w1 + w2 + w3) + c2 * w2 = r2 -> r3 * (w1 + w2 + w3) + c3 * w3 = r3 ->
  fcalc_fractions_single true (r1, r2, r3) (c1, c2, c3) = Ok (w1, w2, w3).
Proof.
  intros H1 H2 H3 HS E1 E2 E3. cbn [fcalc_fractions_single]. set (A := matrix3 _ _ _ _ _ _ _ _ _).
  assert (det 3 (entries A) <> 0) as Hd.
  { replace (det 3 (entries A)) with (c1 * c2 * c3 * (1 + (r1 / c1 + r2 / c2 + r3 / c3))).
    - intros E. apply Qcmult_integral in E as [E|E]; [|contradiction]. apply Qcmult_integral in E as [E|E]; [|contradiction].
      apply Qcmult_integral in E as [E|E]; contradiction.
    - cbv [det qsumn alternate minor entries A elt matrix3]. cbn. field. repeat split; assumption. }
  destruct (cramer_ok A 3 [r1; r2; r3] eq_refl eq_refl Hd) as (x & -> & _ & _ & HU).
  cbn [bind]. rewrite <- (HU [w1; w2; w3]); [reflexivity|reflexivity|].
  intros i Hi. destruct i as [|[|[|i]]]; [| | |lia]; cbn [qsumn nth elt A matrix3].
  - rewrite <- E1 at 4. ring.
  - rewrite <- E2 at 4. ring.
  - rewrite <- E3 at 4. ring.
Qed.
Lemma wpeak_in w1 w2 w3 : 0 <= w1 + w2 + w3 -> w1 + w2 + w3 <= 1 -> wpeak (w1, w2, w3) = Ok (1 - (w1 + w2 + w3)).
Proof.
  intros H0 H1. unfold wpeak. set (s := w1 + w2 + w3) in *. clearbody s.
  set (t := Q2Qc (1 # 10000)). assert (0 < t) as Ht by reflexivity. clearbody t.
  destruct (Qc_ltb s (- t)) eqn:E1; [exfalso; qc_bool; qclra|].
  destruct (Qc_ltb (1 + t) s) eqn:E2; [exfalso; qc_bool; qclra|]. cbn [orb]. f_equal.
  unfold Qc_min, Qc_max. destruct (Qc_leb (1 - s) 0) eqn:E3; qc_bool;
  match goal with |- context [Qc_leb ?a ?b] => destruct (Qc_leb a b) eqn:E4; qc_bool | _ => idtac end; try qclra.
Qed.
Lemma wpeak_out w1 w2 w3 : w1 + w2 + w3 < - Q2Qc (1 # 10000) \/ 1 + Q2Qc (1 # 10000) < w1 + w2 + w3 ->
  wpeak (w1, w2, w3) = Err RuntimeError.
Proof.
  intros H. unfold wpeak. set (s := w1 + w2 + w3) in *. set (t := Q2Qc (1 # 10000)) in *. clearbody s t.
  destruct (Qc_ltb s (- t)) eqn:E1; [reflexivity|]. destruct (Qc_ltb (1 + t) s) eqn:E2; [reflexivity|].
  exfalso. qc_bool. destruct H; qclra.
Qed.

Section Convert.
Context {E : Type} (I : shape_integrals E).
Lemma div_ok a b : b <> 0 -> div a b = Ok (a / b).
Proof. intros H. unfold div. destruct (Qc_eqb b 0) eqn:X; [qc_bool; contradiction|reflexivity]. Qed.
Lemma ratio_ne a b : a <> 0 -> b <> 0 -> a / b <> 0.
Proof. intros Ha Hb X. apply Ha. replace a with (a / b * b) by (field; assumption). rewrite X. ring. Qed.
Lemma constants_ok u s1 s2 : regular I u s1 s2 ->
  constants I u (s1, s2) = Ok (s1 / tnorm I u s1, s2 / tnorm I u s2, gnorm I u / snorm I u).
Proof.
  intros (H1 & H2 & H3 & H4 & H5 & H6). unfold constants. cbn [fst snd].
  rewrite !div_ok by assumption. reflexivity.
Qed.

Lemma to_ratios p u b1 b2 w1 w2 w3 : fixedarearatios p = true -> broadenings p = Some (b1, b2) -> fractions p = Some (w1, w2, w3) ->
  0 <= w1 + w2 + w3 -> w1 + w2 + w3 < 1 -> regular I u (b1 * gsigma I u) (b2 * gsigma I u) ->
  let s1 := b1 * gsigma I u in let s2 := b2 * gsigma I u in let wp := 1 - (w1 + w2 + w3) in
  convert I p (Some u) = Ok {| conversionenergy := Some u; fixedarearatios := false; bpeak := bpeak p;
    broadenings := Some (b1, b2); slopes := Some (s1, s2); fractions := Some (w1, w2, w3);
    ratios := Some (w1 / wp * (s1 / tnorm I u s1), w2 / wp * (s2 / tnorm I u s2), w3 / wp * (gnorm I u / snorm I u)) |}.
Proof.
  intros HF HB HW H0 H1 HR s1 s2 wp. unfold convert. cbn [fixedarearatios broadenings fractions]. rewrite HF, HB, HW.
  unfold set_fractions, set_broadenings. cbn [fixedarearatios conversionenergy broadenings fractions slopes ratios bpeak fst snd].
  cbn [fst snd]. rewrite wpeak_in by (assumption || now apply Qclt_le_weak). cbn [bind]. fold s1 s2 in HR |- *. fold wp. rewrite (constants_ok _ _ _ HR).
  cbn [bind]. unfold fcalc_ratios_single. assert (wp <> 0) as Hp by (unfold wp; intros X; qclra).
  destruct (Qc_eqb wp 0) eqn:X; [qc_bool; contradiction|]. reflexivity.
Qed.
Lemma to_fractions p u s1 s2 r1 r2 r3 c1 c2 c3 w1 w2 w3 : fixedarearatios p = false -> bpeak p = true ->
  slopes p = Some (s1, s2) -> ratios p = Some (r1, r2, r3) -> gsigma I u <> 0 -> regular I u s1 s2 ->
  c1 = s1 / tnorm I u s1 -> c2 = s2 / tnorm I u s2 -> c3 = gnorm I u / snorm I u ->
  1 + (r1 / c1 + r2 / c2 + r3 / c3) <> 0 ->
  r1 * (w1 + w2 + w3) + c1 * w1 = r1 -> r2 * (w1 + w2 + w3) + c2 * w2 = r2 -> r3 * (w1 + w2 + w3) + c3 * w3 = r3 ->
  forall eu, eu = Some u \/ (eu = None /\ conversionenergy p = Some u) ->
  convert I p eu = Ok {| conversionenergy := Some u; fixedarearatios := true; bpeak := true;
    broadenings := Some (s1 / gsigma I u, s2 / gsigma I u); slopes := Some (s1, s2); fractions := Some (w1, w2, w3);
    ratios := Some (r1, r2, r3) |}.
Proof.
  intros HF HB HS HRt HG HR E1 E2 E3 Hn W1 W2 W3 eu Heu. destruct HR as (A1 & A2 & A3 & A4 & A5 & A6) eqn:HR'.
  assert (convert I p eu = convert I p (Some u)) as ->.
  { destruct Heu as [->|[-> HC]]; [reflexivity|]. unfold convert. rewrite HC. reflexivity. }
  unfold convert. cbn [fixedarearatios slopes ratios]. rewrite HF, HS, HRt.
  unfold set_slopes. cbn [fixedarearatios conversionenergy broadenings fractions slopes ratios bpeak fst snd].
  cbn [fst snd]. rewrite !div_ok by assumption. cbn [bind]. unfold set_ratios.
  cbn [fixedarearatios conversionenergy broadenings fractions slopes ratios bpeak fst snd].
  rewrite (constants_ok u s1 s2 HR). cbn [bind]. rewrite HB, <- E1, <- E2, <- E3.
  rewrite (cramer3 r1 r2 r3 c1 c2 c3 w1 w2 w3); try assumption; [reflexivity|subst; now apply ratio_ne..].
Qed.

Lemma there_and_back p u b1 b2 w1 w2 w3 : fixedarearatios p = true -> bpeak p = true ->
  broadenings p = Some (b1, b2) -> fractions p = Some (w1, w2, w3) -> 0 <= w1 + w2 + w3 -> w1 + w2 + w3 < 1 ->
  regular I u (b1 * gsigma I u) (b2 * gsigma I u) -> gsigma I u <> 0 ->
  exists q p', convert I p (Some u) = Ok q /\ fixedarearatios q = false /\ convert I q None = Ok p' /\
    fixedarearatios p' = true /\ broadenings p' = broadenings p /\ fractions p' = fractions p /\ bpeak p' = bpeak p /\
    slopes p' = slopes q /\ ratios p' = ratios q.
Proof.
  intros HF HB Hb HW H0 H1 HR HG. assert (R := to_ratios p u b1 b2 w1 w2 w3 HF Hb HW H0 H1 HR). cbv zeta in R.
  set (s1 := b1 * gsigma I u) in *. set (s2 := b2 * gsigma I u) in *. set (wp := 1 - (w1 + w2 + w3)) in *.
  assert (wp <> 0) as Hp by (unfold wp; intros X; qclra).
  assert (HR' := HR). destruct HR' as (A1 & A2 & A3 & A4 & A5 & A6).
  set (c1 := s1 / tnorm I u s1) in *. set (c2 := s2 / tnorm I u s2) in *. set (c3 := gnorm I u / snorm I u) in *.
  assert (c1 <> 0 /\ c2 <> 0 /\ c3 <> 0) as (C1 & C2 & C3) by (repeat split; now apply ratio_ne).
  assert (w1 + w2 + w3 = 1 - wp) as HS by (unfold wp; ring).
  eexists _, _. split; [exact R|]. split; [reflexivity|]. split.
  - apply (to_fractions _ u s1 s2 (w1 / wp * c1) (w2 / wp * c2) (w3 / wp * c3) c1 c2 c3 w1 w2 w3); [reflexivity|exact HB|reflexivity|reflexivity|exact HG|exact HR|reflexivity|reflexivity|reflexivity| | | | |right; split; reflexivity].
    all: clearbody c1 c2 c3 wp.
    + replace (1 + (w1 / wp * c1 / c1 + w2 / wp * c2 / c2 + w3 / wp * c3 / c3)) with (1 / wp); [now apply ratio_ne|].
      replace (w1 / wp * c1 / c1) with (w1 / wp) by (field; auto). replace (w2 / wp * c2 / c2) with (w2 / wp) by (field; auto).
      replace (w3 / wp * c3 / c3) with (w3 / wp) by (field; auto). replace w3 with (1 - wp - w1 - w2) by (rewrite <- HS; ring). field. assumption.
    + rewrite HS. field. assumption.
    + rewrite HS. field. assumption.
    + rewrite HS. field. assumption.
  - cbn [fixedarearatios broadenings fractions bpeak slopes ratios]. rewrite Hb, HW, HB. repeat split.
    f_equal. unfold s1, s2. f_equal; field; assumption.
Qed.
Lemma back_and_there p u s1 s2 r1 r2 r3 : fixedarearatios p = false -> bpeak p = true ->
  slopes p = Some (s1, s2) -> ratios p = Some (r1, r2, r3) -> gsigma I u <> 0 -> regular I u s1 s2 ->
  0 <= r1 / (s1 / tnorm I u s1) + r2 / (s2 / tnorm I u s2) + r3 / (gnorm I u / snorm I u) ->
  exists q p', convert I p (Some u) = Ok q /\ fixedarearatios q = true /\ convert I q None = Ok p' /\
    fixedarearatios p' = false /\ slopes p' = slopes p /\ ratios p' = ratios p /\ bpeak p' = bpeak p /\
    broadenings p' = broadenings q /\ fractions p' = fractions q.
Proof.
  intros HF HB Hs HRt HG HR HS. assert (HR' := HR). destruct HR' as (A1 & A2 & A3 & A4 & A5 & A6).
  assert (K' := fun w1 w2 w3 => to_fractions p u s1 s2 r1 r2 r3 (s1 / tnorm I u s1) (s2 / tnorm I u s2) (gnorm I u / snorm I u) w1 w2 w3 HF HB Hs HRt HG HR eq_refl eq_refl eq_refl).
  set (c1 := s1 / tnorm I u s1) in *. set (c2 := s2 / tnorm I u s2) in *. set (c3 := gnorm I u / snorm I u) in *.
  assert (c1 <> 0 /\ c2 <> 0 /\ c3 <> 0) as (C1 & C2 & C3) by (repeat split; now apply ratio_ne).
  set (t := r1 / c1 + r2 / c2 + r3 / c3) in *. assert (1 + t <> 0) as Ht by (intros X; qclra).
  set (w1 := r1 / c1 / (1 + t)). set (w2 := r2 / c2 / (1 + t)). set (w3 := r3 / c3 / (1 + t)).
  assert (w1 + w2 + w3 = 1 - 1 / (1 + t)) as HW.
  { replace (w1 + w2 + w3) with (t / (1 + t)); [field; assumption|]. unfold w1, w2, w3.
    replace (r1 / c1 / (1 + t) + r2 / c2 / (1 + t) + r3 / c3 / (1 + t)) with ((r1 / c1 + r2 / c2 + r3 / c3) / (1 + t)) by (field; auto). reflexivity. }
  assert (0 < 1 / (1 + t) /\ 1 / (1 + t) <= 1) as [P0 P1].
  { assert ((1 / (1 + t)) * (1 + t) = 1) as X by (field; assumption). generalize dependent (1 / (1 + t)). intros i _ Xi. clear - Xi HS. generalize dependent t. intros t HS Xi. clear - Xi HS. split.
    - destruct (Qclt_le_dec 0 i); [assumption|]. exfalso. qcnra.
    - destruct (Qclt_le_dec 1 i); [|assumption]. exfalso. qcnra. }
  specialize (K' w1 w2 w3 Ht).
  assert (convert I p (Some u) = Ok {| conversionenergy := Some u; fixedarearatios := true; bpeak := true;
    broadenings := Some (s1 / gsigma I u, s2 / gsigma I u); slopes := Some (s1, s2); fractions := Some (w1, w2, w3);
    ratios := Some (r1, r2, r3) |}) as EQ.
  { apply K'; [| | |now left]; rewrite HW; unfold w1, w2, w3; clearbody t c1 c2 c3; field; auto. }
  eexists _, _. split; [exact EQ|]. split; [reflexivity|].
  assert (s1 / gsigma I u * gsigma I u = s1) as B1 by (field; assumption). assert (s2 / gsigma I u * gsigma I u = s2) as B2 by (field; assumption).
  set (q := {| conversionenergy := _ |}).
  assert (regular I u (s1 / gsigma I u * gsigma I u) (s2 / gsigma I u * gsigma I u)) as HRq by (now rewrite B1, B2).
  assert (R := to_ratios q u (s1 / gsigma I u) (s2 / gsigma I u) w1 w2 w3 eq_refl eq_refl eq_refl).
  assert (convert I q None = convert I q (Some u)) as -> by reflexivity. split.
  - apply R; [rewrite HW; qclra|rewrite HW; qclra|assumption].
  - cbn [fixedarearatios broadenings fractions bpeak slopes ratios]. rewrite B1, B2. fold c1 c2 c3. rewrite HW, HB, Hs, HRt. repeat split.
    f_equal. unfold w1, w2, w3. clearbody t c1 c2 c3. replace (1 - (1 - 1 / (1 + t))) with (1 / (1 + t)) by ring.
    assert (1 / (1 + t) <> 0) by (intros X; rewrite X in P0; discriminate).
    f_equal; [f_equal|]; field; repeat split; auto; discriminate.
Qed.
Lemma convert_refused p u b1 b2 w1 w2 w3 : 
  (conversionenergy p = None -> convert I p None = Err RuntimeError) /\
  (fixedarearatios p = true -> broadenings p = Some (b1, b2) -> fractions p = Some (w1, w2, w3) ->
   w1 + w2 + w3 < - Q2Qc (1 # 10000) \/ 1 + Q2Qc (1 # 10000) < w1 + w2 + w3 -> convert I p (Some u) = Err RuntimeError).
Proof.
  split.
  - intros H. unfold convert. now rewrite H.
  - intros HF HB HW H. unfold convert. cbn [fixedarearatios broadenings fractions]. rewrite HF, HB, HW.
    unfold set_fractions, set_broadenings. cbn [fixedarearatios conversionenergy broadenings fractions slopes ratios bpeak fst snd].
    rewrite wpeak_out by assumption. reflexivity.
Qed.
Lemma ratios_are p u b1 b2 w1 w2 w3 : fixedarearatios p = true -> broadenings p = Some (b1, b2) ->
  fractions p = Some (w1, w2, w3) -> 0 <= w1 + w2 + w3 -> w1 + w2 + w3 < 1 -> regular I u (b1 * gsigma I u) (b2 * gsigma I u) ->
  exists q r1 r2 r3, convert I p (Some u) = Ok q /\ ratios q = Some (r1, r2, r3) /\ slopes q = Some (b1 * gsigma I u, b2 * gsigma I u) /\
    r1 * tnorm I u (b1 * gsigma I u) * (1 - w1 - w2 - w3) = w1 * (b1 * gsigma I u) /\
    r2 * tnorm I u (b2 * gsigma I u) * (1 - w1 - w2 - w3) = w2 * (b2 * gsigma I u) /\
    r3 * snorm I u * (1 - w1 - w2 - w3) = w3 * gnorm I u.
Proof.
  intros HF HB HW H0 H1 HR. assert (R := to_ratios p u b1 b2 w1 w2 w3 HF HB HW H0 H1 HR). cbv zeta in R.
  eexists _, _, _, _. split; [exact R|]. cbn [ratios slopes]. split; [reflexivity|]. split; [reflexivity|].
  destruct HR as (A1 & A2 & A3 & A4 & A5 & A6).
  assert (1 - (w1 + w2 + w3) <> 0) as Hp by (intros X; qclra). replace (1 - w1 - w2 - w3) with (1 - (w1 + w2 + w3)) by ring.
  set (wp := 1 - (w1 + w2 + w3)) in *. clearbody wp. repeat split; field; auto.
Qed.
End Convert.

(* witnesses *)
Definition triple_eqb (a b : triple) : bool :=
  let '(a1, a2, a3) := a in let '(b1, b2, b3) := b in Qc_eqb a1 b1 && Qc_eqb a2 b2 && Qc_eqb a3 b3.
Definition changed (p : peak Qc) (w : triple) : bool :=
  match convert ex_integrals p (Some 1) with
  | Ok q => match convert ex_integrals q None with
            | Ok p' => match fractions p' with Some w' => negb (triple_eqb w w') | None => false end
            | Err _ => false end
  | Err _ => false end.
Lemma changed_spec p w : changed p w = true -> exists w' q p', w <> w' /\
  convert ex_integrals p (Some 1) = Ok q /\ convert ex_integrals q None = Ok p' /\ fractions p' = Some w'.
Proof.
  unfold changed. destruct (convert _ p _) as [q|] eqn:E1; [|discriminate]. destruct (convert _ q _) as [p'|] eqn:E2; [|discriminate].
  destruct (fractions p') as [w'|] eqn:E3; [|discriminate]. intros H. exists w', q, p'. repeat split; try assumption.
  intros <-. destruct w as [[a b] c]. cbn [triple_eqb] in H.
  rewrite !(proj2 (Qc_eqb_spec _ _) eq_refl) in H. discriminate.
Qed.
Lemma no_gaussian : exists w w' q p', w <> w' /\
  convert ex_integrals (ex_peak true w) (Some 1) = Ok q /\ convert ex_integrals q None = Ok p' /\ fractions p' = Some w'.
Proof. exists (1, 0, 0). apply changed_spec. vm_compute. reflexivity. Qed.
Lemma switched_off : exists w w' q p', w <> w' /\ (let '(w1, w2, w3) := w in 0 <= w1 + w2 + w3 /\ w1 + w2 + w3 < 1) /\
  convert ex_integrals (ex_peak false w) (Some 1) = Ok q /\ convert ex_integrals q None = Ok p' /\ fractions p' = Some w'.
Proof.
  exists (Q2Qc (1 # 2), 0, 0). destruct (changed_spec (ex_peak false (Q2Qc (1 # 2), 0, 0)) (Q2Qc (1 # 2), 0, 0)) as (w' & q & p' & H & H').
  { vm_compute. reflexivity. }
  exists w', q, p'. split; [assumption|]. split; [split; [discriminate|reflexivity]|assumption].
Qed.
