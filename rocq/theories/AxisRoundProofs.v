(* Step sizes that do not divide their segments: the number of steps is rounded. *)
From Verif Require Import Base QcTac AxisModel AxisSegProofs.
From Coq Require Import Lia Qround.
Local Open Scope Qc_scope.

Lemma floor_bounds x : Qc_of_Z (Qfloor (this x)) <= x /\ x < Qc_of_Z (Qfloor (this x)) + 1.
Proof.
  split.
  - unfold Qcle, Qc_of_Z, Q2Qc; cbn [this]; rewrite ?Qred_correct. apply Qfloor_le.
  - replace (Qc_of_Z (Qfloor (this x)) + 1) with (Qc_of_Z (Qfloor (this x) + 1)) by (rewrite Qc_of_Z_plus; reflexivity).
    unfold Qclt, Qc_of_Z, Q2Qc; cbn [this]; rewrite ?Qred_correct. apply Qlt_floor.
Qed.
Lemma round_even_near x : let n := round_even x in
  - Q2Qc (1 # 2) <= Qc_of_Z n - x /\ Qc_of_Z n - x <= Q2Qc (1 # 2) /\
  (Qc_of_Z n - x = Q2Qc (1 # 2) \/ Qc_of_Z n - x = - Q2Qc (1 # 2) -> Z.even n = true).
Proof.
  cbv zeta. destruct (floor_bounds x) as [A B]. unfold round_even. cbv zeta. set (f := Qfloor (this x)) in *. clearbody f.
  assert (S1 : Qc_of_Z (f + 1) = Qc_of_Z f + 1) by (rewrite Qc_of_Z_plus; reflexivity).
  assert (Hh : Q2Qc (1 # 2) + Q2Qc (1 # 2) = 1) by (apply Qc_is_canon; reflexivity).
  set (h := Q2Qc (1 # 2)) in *. clearbody h.
  destruct (Qc_ltb (x - Qc_of_Z f) h) eqn:E1; qc_bool.
  - repeat split; [qclra|qclra|]. intros [H|H]; exfalso; qclra.
  - destruct (Qc_ltb h (x - Qc_of_Z f)) eqn:E2; qc_bool.
    + rewrite S1. repeat split; [qclra|qclra|]. intros [H|H]; exfalso; qclra.
    + destruct (Z.even f) eqn:Ev.
      * repeat split; [qclra|qclra|]. intros _. exact Ev.
      * rewrite S1. repeat split; [qclra|qclra|]. intros _. rewrite Z.even_add, Ev. reflexivity.
Qed.
Lemma steps_of_sizes_near st : forall limits ns, steps_of_sizes limits st = Ok ns -> length ns = length st /\
  forall j n s e d, nth_error ns j = Some n -> nth_error limits j = Some s -> nth_error limits (S j) = Some e -> nth_error st j = Some d ->
    d <> 0 /\ - Q2Qc (1 # 2) <= Qc_of_Z n - (e - s) / d /\ Qc_of_Z n - (e - s) / d <= Q2Qc (1 # 2) /\
    (Qc_of_Z n - (e - s) / d = Q2Qc (1 # 2) \/ Qc_of_Z n - (e - s) / d = - Q2Qc (1 # 2) -> Z.even n = true).
Proof.
  induction st as [|d0 st IH]; intros limits ns E.
  - assert (E0 : steps_of_sizes limits [] = Ok []) by (destruct limits; reflexivity). assert (ns = []) as -> by congruence. split; [reflexivity|]. intros [|j]; discriminate.
  - destruct limits as [|a [|b limits]]; [discriminate|discriminate|]. rewrite steps_of_sizes_cons in E. cbv zeta in E.
    destruct (Qc_eqb d0 0) eqn:Z0; [discriminate|]. destruct (steps_of_sizes (b :: limits) st) as [ns'|] eqn:E'; cbn [bind] in E; [|discriminate].
    assert (ns = round_even ((b - a) / d0) :: ns') as -> by congruence. destruct (IH _ _ E') as [L H]. split; [cbn; congruence|].
    intros [|j] n s e d H1 H2 H3 H4.
    + cbn in H1, H2, H3, H4. assert (n = round_even ((b - a) / d0)) as -> by congruence. assert (s = a) as -> by congruence. assert (e = b) as -> by congruence. assert (d = d0) as -> by congruence.
      qc_bool. split; [assumption|]. exact (round_even_near ((b - a) / d0)).
    + exact (H j n s e d H1 H2 H3 H4).
Qed.
Lemma set_stepsizes_near p limits ns0 st0 vs0 st a : set_stepsizes (Axis (Segments limits ns0 st0) vs0 p) st = Ok a ->
  exists lm ns st', a_form a = Segments lm ns st' /\ length ns = length st /\
  forall j n s e d, nth_error ns j = Some n -> nth_error limits j = Some s -> nth_error limits (S j) = Some e -> nth_error st j = Some d ->
    d <> 0 /\ - Q2Qc (1 # 2) <= Qc_of_Z n - (e - s) / d /\ Qc_of_Z n - (e - s) / d <= Q2Qc (1 # 2) /\
    (Qc_of_Z n - (e - s) / d = Q2Qc (1 # 2) \/ Qc_of_Z n - (e - s) / d = - Q2Qc (1 # 2) -> Z.even n = true).
Proof.
  cbn [set_stepsizes a_form a_precision]. destruct (steps_of_sizes limits st) as [ns|] eqn:E; cbn [bind]; [|discriminate]. intros M.
  unfold make_segments in M. destruct (negb _); [discriminate|]. destruct ns as [|n ns]; [discriminate|].
  destruct (seg_loop limits (n :: ns)) as [[[lm st'] vs]|]; cbn [bind] in M; [|discriminate].
  exists lm, (n :: ns), st'. split; [|exact (steps_of_sizes_near st limits (n :: ns) E)].
  assert (a = Axis (Segments lm (n :: ns) st') vs p) as -> by congruence. reflexivity.
Qed.
Lemma set_stepsizes_zero p a b limits ns0 st0 vs0 st : set_stepsizes (Axis (Segments (a :: b :: limits) ns0 st0) vs0 p) (0 :: st) = Err ZeroDivisionError.
Proof. reflexivity. Qed.
