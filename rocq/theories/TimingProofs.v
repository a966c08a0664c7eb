From Verif Require Import BaseProofs TimingModel.
From Coq Require Import Lia.
Local Open Scope Qc_scope.

Lemma int_spec q : 0 <= q -> (0 <= int q)%Z /\ Qc_of_Z (int q) <= q /\ q < Qc_of_Z (int q) + 1.
Proof.
  intros H. unfold int. set (n := Qnum (this q)). set (d := Qden (this q)).
  assert (0 <= n)%Z as N. { unfold Qcle, Qle in H. cbn in H. unfold n. lia. }
  rewrite Z.quot_div_nonneg by lia. pose proof (Z.div_mod n (Zpos d) ltac:(lia)) as D. pose proof (Z.mod_pos_bound n (Zpos d) ltac:(lia)) as B.
  assert (0 <= n / Zpos d)%Z as P by (apply Z.div_pos; lia). set (k := (n / Zpos d)%Z) in *. split; [exact P|]. split.
  - qc2q. unfold Qc_of_Z. rewrite this_Q2Qc. unfold Qle. cbn [Qnum Qden inject_Z]. fold n d. nia.
  - qc2q. unfold Qc_of_Z. rewrite this_Q2Qc. unfold Qlt. cbn. fold n d. nia.
Qed.
Lemma int_unique q k : 0 <= q -> Qc_of_Z k <= q -> q < Qc_of_Z (k + 1) -> int q = k.
Proof.
  intros H A B. destruct (int_spec q H) as (_ & C & D). assert (Qc_of_Z (int q) + 1 = Qc_of_Z (int q + 1)) as E by (rewrite Qc_of_Z_plus; reflexivity). rewrite E in D.
  assert (k < int q + 1)%Z by (apply Qc_of_Z_lt; eapply Qcle_lt_trans; eassumption). assert (int q < k + 1)%Z by (apply Qc_of_Z_lt; eapply Qcle_lt_trans; eassumption). lia.
Qed.
Lemma div_scale a b : 0 < b -> (a / b) * b = a.
Proof. intros H. field. intros E. rewrite E in H. discriminate. Qed.
(* quotient and remainder by a number of seconds *)
Lemma int_div x (k : Z) : 0 <= x -> (0 < k)%Z -> let q := int (x / Qc_of_Z k) in (0 <= q)%Z /\ 0 <= x - Qc_of_Z (q * k) /\ x - Qc_of_Z (q * k) < Qc_of_Z k.
Proof.
  intros H K. assert (0 < Qc_of_Z k) as K' by (change 0 with (Qc_of_Z 0); now apply Qc_of_Z_lt). pose proof (div_scale x _ K') as E.
  assert (0 <= x / Qc_of_Z k) as P. { set (z := x / Qc_of_Z k) in *. set (b := Qc_of_Z k) in *. clearbody z b. qcnra. }
  cbv zeta. destruct (int_spec _ P) as (A & B & C). set (q := int (x / Qc_of_Z k)) in *. rewrite Qc_of_Z_mult. split; [exact A|].
  set (z := x / Qc_of_Z k) in *. set (b := Qc_of_Z k) in *. set (w := Qc_of_Z q) in *. clearbody z b w. clear q A. split; qcnra.
Qed.
Lemma int_bound q k : 0 <= q -> q < Qc_of_Z k -> (int q < k)%Z.
Proof. intros H K. destruct (int_spec q H) as (_ & B & _). apply Qc_of_Z_lt. eapply Qcle_lt_trans; eassumption. Qed.
Theorem time t h m s : 0 <= t -> hms t = (h, m, s) -> (0 <= h)%Z /\ (0 <= m < 60)%Z /\ (0 <= s < 60)%Z /\
  Qc_of_Z (3600 * h + 60 * m + s) <= t /\ t < Qc_of_Z (3600 * h + 60 * m + s + 1).
Proof.
  intros T H. unfold hms in H.
  destruct (int_div t 3600 T ltac:(lia)) as (A1 & A2 & A3). set (hh := int (t / Qc_of_Z 3600)) in *. set (r := t - Qc_of_Z (hh * 3600)) in *.
  destruct (int_div r 60 A2 ltac:(lia)) as (B1 & B2 & B3). set (mm := int (r / Qc_of_Z 60)) in *. set (u := r - Qc_of_Z (mm * 60)) in *.
  destruct (int_spec u B2) as (C1 & C2 & C3). assert (h = hh) as -> by congruence. assert (m = mm) as -> by congruence. assert (s = int u) as -> by congruence. clear H.
  assert (mm < 60)%Z as M.
  { assert (Qc_of_Z (mm * 60) < Qc_of_Z 3600) as L by (unfold u in B2; clear - A3 B2; set (w := Qc_of_Z (mm * 60)) in *; set (v := Qc_of_Z 3600) in *; clearbody w v r; qclra). apply (proj1 (Qc_of_Z_lt (mm * 60) 3600)) in L. lia. }
  pose proof (int_bound u 60 B2 B3) as S. repeat split; try assumption.
  - replace (3600 * hh + 60 * mm + int u)%Z with (hh * 3600 + mm * 60 + int u)%Z by lia. rewrite !Qc_of_Z_plus. unfold u, r in C2 |- *. set (a := Qc_of_Z (hh * 3600)) in *. set (b := Qc_of_Z (mm * 60)) in *. set (c := Qc_of_Z (int _)) in *. clearbody a b c. clear - C2. qclra.
  - replace (3600 * hh + 60 * mm + int u + 1)%Z with (hh * 3600 + mm * 60 + int u + 1)%Z by lia. rewrite !Qc_of_Z_plus. change (Qc_of_Z 1) with 1. unfold u, r in C3 |- *. set (a := Qc_of_Z (hh * 3600)) in *. set (b := Qc_of_Z (mm * 60)) in *. set (c := Qc_of_Z (int _)) in *. clearbody a b c. clear - C3. qclra.
Qed.
(* progress *)
Theorem print_start p n dt : printprogress (setn p n) dt = Err ZeroDivisionError.
Proof. reflexivity. Qed.
Theorem print_error p dt : printprogress p dt = Err ZeroDivisionError <-> (ncurrent p * nmaxfine p + ncurrentfine p = 0)%Z \/ (nmax p * nmaxfine p = 0)%Z.
Proof.
  unfold printprogress. cbv zeta. destruct (ncurrent p * nmaxfine p + ncurrentfine p =? 0)%Z eqn:E; [apply Z.eqb_eq in E|apply Z.eqb_neq in E]; [split; auto|].
  destruct (nmax p * nmaxfine p =? 0)%Z eqn:F; [apply Z.eqb_eq in F|apply Z.eqb_neq in F]; [split; auto|]. split; [discriminate|]. intros [G|G]; contradiction.
Qed.
Lemma percent c n : (0 < c <= n)%Z -> let q := int (Qc_of_Z c / Qc_of_Z n * Qc_of_Z 100) in (q * n <= 100 * c < (q + 1) * n)%Z.
Proof.
  intros H. assert (0 < Qc_of_Z n) as N by (change 0 with (Qc_of_Z 0); apply Qc_of_Z_lt; lia). assert (0 < Qc_of_Z c) as C by (change 0 with (Qc_of_Z 0); apply Qc_of_Z_lt; lia).
  pose proof (div_scale (Qc_of_Z c) _ N) as E. set (z := Qc_of_Z c / Qc_of_Z n) in *.
  assert (0 <= z) as Z0. { set (x := Qc_of_Z c) in *. set (y := Qc_of_Z n) in *. clearbody x y z. qcnra. }
  assert (0 <= z * Qc_of_Z 100) as Z1. { assert (0 < Qc_of_Z 100) as Y by reflexivity. set (y := Qc_of_Z 100) in *. clearbody y z. clear - Y Z0. qcnra. }
  destruct (int_spec _ Z1) as (_ & A & B). cbv zeta. set (q := int (z * Qc_of_Z 100)) in *. assert (Qc_of_Z q + 1 = Qc_of_Z (q + 1)) as F by (rewrite Qc_of_Z_plus; reflexivity). rewrite F in B. split.
  - apply Qc_of_Z_le. rewrite !Qc_of_Z_mult. set (x := Qc_of_Z c) in *. set (y := Qc_of_Z n) in *. set (w := Qc_of_Z q) in *. set (v := Qc_of_Z 100) in *. clearbody x y z w v. clear - A N E. assert (v * x = (z * v) * y) as -> by (rewrite <- E; ring). set (k := z * v) in *. clearbody k. qcnra.
  - apply Qc_of_Z_lt. rewrite !Qc_of_Z_mult. set (x := Qc_of_Z c) in *. set (y := Qc_of_Z n) in *. set (w := Qc_of_Z (q + 1)) in *. set (v := Qc_of_Z 100) in *. clearbody x y z w v. clear - B N E. assert (v * x = (z * v) * y) as -> by (rewrite <- E; ring). set (k := z * v) in *. clearbody k. qcnra.
Qed.
Theorem print_ok p dt c n : c = (ncurrent p * nmaxfine p + ncurrentfine p)%Z -> n = (nmax p * nmaxfine p)%Z -> (0 < c <= n)%Z ->
  exists done left, printprogress p dt = Ok (hms (Qc_of_Z (seconds dt)), done, hms left, (100 - done)%Z) /\
    left * Qc_of_Z c = Qc_of_Z (seconds dt) * Qc_of_Z (n - c) /\ (done * n <= 100 * c < (done + 1) * n)%Z.
Proof.
  intros -> -> H. unfold printprogress. cbv zeta. set (c := (ncurrent p * nmaxfine p + ncurrentfine p)%Z) in *. set (n := (nmax p * nmaxfine p)%Z) in *.
  destruct (c =? 0)%Z eqn:E; [apply Z.eqb_eq in E; lia|]. destruct (n =? 0)%Z eqn:F; [apply Z.eqb_eq in F; lia|]. do 2 eexists. split; [reflexivity|]. split; [|now apply percent].
  rewrite Qc_of_Z_minus. assert (Qc_of_Z c <> 0) as C0. { intros G. change 0 with (Qc_of_Z 0) in G. apply Qc_of_Z_inj in G. lia. } field. exact C0.
Qed.
Theorem print_finished p dt n : n = (nmax p * nmaxfine p)%Z -> (0 < n)%Z -> (ncurrent p * nmaxfine p + ncurrentfine p)%Z = n ->
  printprogress p dt = Ok (hms (Qc_of_Z (seconds dt)), 100%Z, (0, 0, 0)%Z, 0%Z).
Proof.
  intros -> N E. unfold printprogress. cbv zeta. rewrite E. set (n := (nmax p * nmaxfine p)%Z) in *. destruct (n =? 0)%Z eqn:F; [apply Z.eqb_eq in F; lia|].
  assert (Qc_of_Z n <> 0) as C0. { intros G. change 0 with (Qc_of_Z 0) in G. apply Qc_of_Z_inj in G. lia. }
  assert (Qc_of_Z n / Qc_of_Z n = 1) as -> by (field; exact C0). assert (Qc_of_Z (seconds dt) * (1 - 1) = 0) as -> by ring. assert (1 * Qc_of_Z 100 = Qc_of_Z 100) as -> by ring. reflexivity.
Qed.
Theorem print_days p dt dt' : seconds dt = seconds dt' -> printprogress p dt = printprogress p dt'.
Proof. intros E. unfold printprogress. now rewrite E. Qed.
Theorem fine_steps p dt : printprogress (ndonefine p (nmaxfine p - ncurrentfine p)) dt = printprogress (ndone p 1) dt.
Proof.
  unfold printprogress, ndonefine, ndone. cbn. replace (ncurrent p * nmaxfine p + (ncurrentfine p + (nmaxfine p - ncurrentfine p)))%Z with ((ncurrent p + 1) * nmaxfine p + 0)%Z by lia. reflexivity.
Qed.
