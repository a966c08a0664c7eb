From Verif Require Import ScalarModel ScalarSpec ScalarProofs.
From Coq Require Import Lia.
Local Open Scope Qc_scope.

Lemma of_Z_pos a : (0 < a)%Z -> 0 < Qc_of_Z a.
Proof. intros H. change 0 with (Qc_of_Z 0). now apply Qc_of_Z_lt. Qed.
Lemma pow_pos n : (0 <= n)%Z -> (0 < 10 ^ n)%Z.
Proof. intros. apply Z.pow_pos_nonneg; lia. Qed.
Lemma of_Z_pow_nz n : (0 <= n)%Z -> Qc_of_Z (10 ^ n) <> 0.
Proof. intros H E. pose proof (of_Z_pos _ (pow_pos n H)) as P. rewrite E in P. qclra. Qed.
Lemma pow10_ten n : ten n (pow10 n).
Proof.
  unfold ten, pow10. destruct (Z.leb_spec 0 n) as [L|L]; [left; auto|right]. split; [exact L|].
  assert (N := of_Z_pow_nz (- n) ltac:(lia)). generalize dependent (Qc_of_Z (10 ^ (- n))). intros q N. field. exact N.
Qed.
Lemma ten_unique e a b : ten e a -> ten e b -> a = b.
Proof.
  intros [[H ->]|[H A]] [[H' ->]|[H' B]]; try lia; [reflexivity|].
  assert (N := of_Z_pow_nz (- e) ltac:(lia)). generalize dependent (Qc_of_Z (10 ^ (- e))). intros q A B N.
  assert (a * q - b * q = 0) by (rewrite A, B; ring). assert ((a - b) * q = 0) by (rewrite <- H0; ring).
  apply Qcmult_integral in H1. destruct H1 as [H1|H1]; [|contradiction]. qclra.
Qed.
Lemma ten_is e a : ten e a -> a = pow10 e.
Proof. intros H. exact (ten_unique e a (pow10 e) H (pow10_ten e)). Qed.
Definition q10 : Qc := Qc_of_Z 10.
Lemma q10_nz : q10 <> 0. Proof. exact (of_Z_pow_nz 1 ltac:(lia)). Qed.
Lemma pow10_succ n : pow10 (n + 1) = pow10 n * q10.
Proof.
  apply (ten_unique (n + 1)); [apply pow10_ten|]. pose proof (pow10_ten n) as [[H E]|[H E]].
  - left. split; [lia|]. rewrite E. unfold q10. rewrite <- Qc_of_Z_mult. f_equal. rewrite Z.pow_add_r by lia. ring.
  - destruct (Z.eq_dec n (-1)) as [->|D].
    + left. split; [lia|]. change (-1 + 1)%Z with 0%Z. change (10 ^ 0)%Z with 1%Z. rewrite of_Z_1. exact E.
    + right. split; [lia|]. replace (- n)%Z with (1 + - (n + 1))%Z in E by lia. rewrite Z.pow_add_r in E by lia.
      rewrite Qc_of_Z_mult in E. change (Qc_of_Z (10 ^ 1)) with q10 in E. rewrite <- E. ring.
Qed.
Lemma pow10_0 : pow10 0 = 1. Proof. change (pow10 0) with (Qc_of_Z 1). apply of_Z_1. Qed.
Lemma pow10_nz n : pow10 n <> 0.
Proof.
  destruct (pow10_ten n) as [[H E]|[H E]]; [rewrite E; now apply of_Z_pow_nz|].
  intros Z. rewrite Z in E. assert (0 = 1) by (rewrite <- E; ring). discriminate H0.
Qed.
Lemma pow10_pos n : 0 < pow10 n.
Proof.
  destruct (pow10_ten n) as [[H E]|[H E]]; [rewrite E; apply of_Z_pos; now apply pow_pos|].
  assert (P := of_Z_pos _ (pow_pos (- n) ltac:(lia))). generalize dependent (Qc_of_Z (10 ^ (- n))). intros q E P.
  destruct (Qc_ltb 0 (pow10 n)) eqn:L; qc_bool; [exact L|exfalso]. qcnra.
Qed.
Lemma pow10_plus m n : pow10 (m + n) = pow10 m * pow10 n.
Proof.
  revert n. apply Z.bi_induction.
  - intros a b ->. reflexivity.
  - rewrite pow10_0, Z.add_0_r. ring.
  - intros n. assert (S1 : pow10 (Z.succ n) = pow10 n * q10) by apply pow10_succ.
    assert (S2 : pow10 (m + Z.succ n) = pow10 (m + n) * q10) by (rewrite Z.add_succ_r; apply pow10_succ).
    rewrite S1, S2. split; [intros ->; ring|]. intros E.
    assert ((pow10 (m + n) - pow10 m * pow10 n) * q10 = 0).
    { replace ((pow10 (m + n) - pow10 m * pow10 n) * q10) with (pow10 (m + n) * q10 - pow10 m * (pow10 n * q10)) by ring.
      rewrite E. ring. }
    apply Qcmult_integral in H. destruct H as [H|H]; [|destruct (q10_nz H)].
    revert H. generalize (pow10 (m + n)), (pow10 m), (pow10 n). intros a b c H.
    replace a with (a - b * c + b * c) by ring. rewrite H. ring.
Qed.
Lemma pow10_le m n : (m <= n)%Z -> pow10 m <= pow10 n.
Proof.
  intros H. replace n with (m + (n - m))%Z by lia. rewrite pow10_plus. pose proof (pow10_pos m).
  assert (1 <= pow10 (n - m)).
  { destruct (pow10_ten (n - m)) as [[_ ->]|[L _]]; [|lia]. rewrite <- of_Z_1. apply Qc_of_Z_le.
    pose proof (pow_pos (n - m) ltac:(lia)). lia. }
  generalize dependent (pow10 (n - m)). generalize dependent (pow10 m). intros; qcnra.
Qed.
Lemma pow10_of_Z n : (0 <= n)%Z -> pow10 n = Qc_of_Z (10 ^ n).
Proof. intros H. unfold pow10. destruct (Z.leb_spec 0 n); [reflexivity|lia]. Qed.

Lemma div_mul a m : m <> 0 -> a / m * m = a.
Proof. intros. field. assumption. Qed.
Lemma unit_inv n u : ten (- n) u -> u * pow10 n = 1.
Proof. intros H. rewrite (ten_is _ _ H), <- pow10_plus. replace (- n + n)%Z with 0%Z by lia. apply pow10_0. Qed.
Lemma div_pow a n u : ten (- n) u -> a / pow10 n = a * u.
Proof.
  intros H. pose proof (unit_inv n u H) as E. pose proof (pow10_nz n) as N. generalize dependent (pow10 n). intros q E N.
  replace (a / q) with (a * (u * q) / q) by (rewrite E; f_equal; ring). field. exact N.
Qed.
Lemma unit_pos n u : ten (- n) u -> 0 < u.
Proof. intros H. rewrite (ten_is _ _ H). apply pow10_pos. Qed.
Theorem ceil_ndigits_ok : forall x n u, ten (- n) u ->
  multiple_of u (ceil_ndigits x n) /\ x <= ceil_ndigits x n /\ ceil_ndigits x n < x + u.
Proof.
  intros x n u H. unfold ceil_ndigits. rewrite (div_pow _ _ _ H). split; [eexists; reflexivity|].
  pose proof (ceil_bounds (x * pow10 n)) as [A B]. pose proof (unit_inv n u H) as E. pose proof (unit_pos n u H) as P.
  generalize dependent (Qc_of_Z (ceil (x * pow10 n))). intros c A B. generalize dependent (pow10 n). intros q E A B.
  assert (X : x = x * q * u) by (transitivity (x * (u * q)); [rewrite E; ring|ring]).
  set (y := x * q) in *. clearbody y. subst x. split; qcnra.
Qed.
Theorem floor_ndigits_ok : forall x n u, ten (- n) u ->
  multiple_of u (floor_ndigits x n) /\ floor_ndigits x n <= x /\ x < floor_ndigits x n + u.
Proof.
  intros x n u H. unfold floor_ndigits. rewrite (div_pow _ _ _ H). split; [eexists; reflexivity|].
  pose proof (floor_bounds (x * pow10 n)) as [A B]. pose proof (unit_inv n u H) as E. pose proof (unit_pos n u H) as P.
  generalize dependent (Qc_of_Z (floor (x * pow10 n))). intros c A B. generalize dependent (pow10 n). intros q E A B.
  assert (X : x = x * q * u) by (transitivity (x * (u * q)); [rewrite E; ring|ring]).
  set (y := x * q) in *. clearbody y. subst x. split; qcnra.
Qed.
Theorem round_ndigits_ok : forall x n u, ten (- n) u ->
  multiple_of u (round_ndigits x n) /\ x - half * u <= round_ndigits x n /\ round_ndigits x n <= x + half * u.
Proof.
  intros x n u H. unfold round_ndigits. rewrite (div_pow _ _ _ H). split; [eexists; reflexivity|].
  pose proof (rint_bounds (x * pow10 n)) as [A B]. pose proof (unit_inv n u H) as E. pose proof (unit_pos n u H) as P.
  generalize dependent (Qc_of_Z (rint (x * pow10 n))). intros c A B. generalize dependent (pow10 n). intros q E A B.
  assert (X : x = x * q * u) by (transitivity (x * (u * q)); [rewrite E; ring|ring]).
  set (y := x * q) in *. clearbody y. subst x. generalize dependent half. intros h A B. split; qcnra.
Qed.
(* a multiple of the unit is kept *)
Lemma floor_of_Z k : floor (Qc_of_Z k) = k.
Proof.
  pose proof (floor_bounds (Qc_of_Z k)) as [A B]. apply (proj1 (Qc_of_Z_le _ _)) in A. apply of_Z_lt_1 in B. lia.
Qed.
Lemma ceil_of_Z k : ceil (Qc_of_Z k) = k.
Proof.
  pose proof (ceil_bounds (Qc_of_Z k)) as [A B]. apply (proj1 (Qc_of_Z_le _ _)) in A. apply of_Z_lt_1 in B. lia.
Qed.
Theorem ndigits_fixed : forall x n u, ten (- n) u -> multiple_of u x ->
  ceil_ndigits x n = x /\ floor_ndigits x n = x /\ round_ndigits x n = x.
Proof.
  intros x n u H [k ->]. unfold ceil_ndigits, floor_ndigits, round_ndigits.
  replace (Qc_of_Z k * u * pow10 n) with (Qc_of_Z k) by (transitivity (Qc_of_Z k * (u * pow10 n)); [rewrite (unit_inv n u H); ring|ring]).
  rewrite ceil_of_Z, floor_of_Z, rint_of_Z, !(div_pow _ _ _ H). auto.
Qed.

Theorem round_tie : forall k n u, ten (- n) u ->
  exists j, round_ndigits ((Qc_of_Z k + half) * u) n = Qc_of_Z j * u /\ Z.even j = true /\ (k <= j <= k + 1)%Z.
Proof.
  intros k n u H. unfold round_ndigits. rewrite (div_pow _ _ _ H).
  replace ((Qc_of_Z k + half) * u * pow10 n) with (Qc_of_Z k + half)
    by (transitivity ((Qc_of_Z k + half) * (u * pow10 n)); [rewrite (unit_inv n u H); ring|ring]).
  destruct (rint_tie _ k eq_refl) as [A B]. eauto.
Qed.

(* ---- decimal digits ---- *)
Lemma ndigits_from_ok fuel : forall a, (0 < a)%Z -> (a < 2 ^ Z.of_nat fuel)%Z ->
  (1 <= ndigits_from fuel a)%Z /\ (10 ^ (ndigits_from fuel a - 1) <= a < 10 ^ ndigits_from fuel a)%Z.
Proof.
  induction fuel as [|f IH]; intros a P L; [change (2 ^ Z.of_nat 0)%Z with 1%Z in L; lia|].
  cbn [ndigits_from]. destruct (Z.ltb_spec a 10) as [S|S]; [cbn; lia|].
  rewrite Nat2Z.inj_succ, Z.pow_succ_r in L by lia.
  destruct (IH (a / 10)%Z) as (A & B & C).
  - apply Z.div_str_pos; lia.
  - apply Z.div_lt_upper_bound; lia.
  - set (d := ndigits_from f (a / 10)) in *. clearbody d. pose proof (Z.div_mod a 10 ltac:(lia)). pose proof (Z.mod_pos_bound a 10 ltac:(lia)).
    split; [lia|]. replace (1 + d - 1)%Z with (1 + (d - 1))%Z by lia. rewrite !Z.pow_add_r by lia. change (10 ^ 1)%Z with 10%Z. lia.
Qed.
Lemma ndigits_ok a : (0 < a)%Z -> (1 <= ndigits a)%Z /\ (10 ^ (ndigits a - 1) <= a < 10 ^ ndigits a)%Z.
Proof.
  intros P. apply ndigits_from_ok; [exact P|]. pose proof (Z.log2_spec a P) as [_ H]. pose proof (Z.log2_nonneg a).
  rewrite Nat2Z.inj_succ, Z2Nat.id by lia. exact H.
Qed.
Lemma floor_log10_ok x : 0 < x -> pow10 (floor_log10 x) <= x /\ x < pow10 (floor_log10 x + 1).
Proof.
  intros P. unfold floor_log10. set (a := Qnum (this x)). set (b := Zpos (Qden (this x))).
  assert (X : x * Qc_of_Z b = Qc_of_Z a).
  { apply Qc_is_canon. unfold Qc_of_Z. rewrite this_mult, !this_Q2Qc. unfold Qeq, a, b. cbn. rewrite Pos.mul_1_r. ring. }
  assert (PA : (0 < a)%Z) by (unfold Qclt, Qlt in P; cbn in P; unfold a; lia).
  assert (PB : (0 < b)%Z) by (unfold b; lia).
  destruct (ndigits_ok a PA) as (A0 & A1 & A2). destruct (ndigits_ok b PB) as (B0 & B1 & B2).
  set (na := ndigits a) in *. set (nb := ndigits b) in *. clearbody na nb a b.
  apply Qc_of_Z_le in A1, B1. apply Qc_of_Z_lt in A2, B2. rewrite <- !pow10_of_Z in A1, A2, B1, B2 by lia.
  assert (UP : x < pow10 (na - nb + 1)).
  { replace na with ((na - nb + 1) + (nb - 1))%Z in A2 by lia. rewrite pow10_plus in A2.
    pose proof (pow10_pos (nb - 1)). pose proof (pow10_pos (na - nb + 1)).
    generalize dependent (pow10 (na - nb + 1)). generalize dependent (pow10 (nb - 1)).
    apply of_Z_pos in PB. generalize dependent (Qc_of_Z a). generalize dependent (Qc_of_Z b). intros.
    destruct (Qc_ltb x q2) eqn:E; qc_bool; [exact E|exfalso]. qcnra. }
  assert (DN : pow10 (na - nb - 1) <= x).
  { replace (na - 1)%Z with ((na - nb - 1) + nb)%Z in A1 by lia. rewrite pow10_plus in A1.
    pose proof (pow10_pos nb). pose proof (pow10_pos (na - nb - 1)).
    generalize dependent (pow10 (na - nb - 1)). generalize dependent (pow10 nb).
    apply of_Z_pos in PB. generalize dependent (Qc_of_Z a). generalize dependent (Qc_of_Z b). intros.
    destruct (Qc_leb q2 x) eqn:E; qc_bool; [exact E|exfalso]. qcnra. }
  destruct (Qc_leb (pow10 (na - nb)) x) eqn:E; qc_bool; [split; assumption|].
  split; [exact DN|]. replace (na - nb - 1 + 1)%Z with (na - nb)%Z by lia. exact E.
Qed.
Lemma abs_pos x : x <> 0 -> 0 < Qc_abs x.
Proof.
  intros N. unfold Qc_abs. destruct (Qc_leb 0 x) eqn:E; qc_bool; [|qclra].
  destruct (Qc_ltb 0 x) eqn:L; qc_bool; [exact L|]. destruct N. apply Qcle_antisym; assumption.
Qed.
Lemma sig_ok x sig n : sig_to_ndigits x sig = Ok n -> exists e t v, ten e t /\ ten (e + 1 - sig) v /\ ten (- n) v /\
  t <= Qc_abs x /\ Qc_abs x < t * Qc_of_Z 10.
Proof.
  unfold sig_to_ndigits. destruct (Qc_eqb x 0) eqn:E; [discriminate|]. qc_bool. intros H. inversion H; subst n; clear H.
  exists (floor_log10 (Qc_abs x)), (pow10 (floor_log10 (Qc_abs x))), (pow10 (floor_log10 (Qc_abs x) + 1 - sig)).
  destruct (floor_log10_ok (Qc_abs x) (abs_pos x E)) as [A B]. rewrite pow10_succ in B.
  split; [apply pow10_ten|]. split; [apply pow10_ten|]. split; [|split; assumption].
  match goal with |- ten ?a (pow10 ?b) => replace a with b by lia end. apply pow10_ten.
Qed.
Lemma sig_unit x sig n : sig_to_ndigits x sig = Ok n -> exists v, significant x sig v /\ ten (- n) v.
Proof. intros H. destruct (sig_ok x sig n H) as (e & t & v & A & B & C & D & E). exists v. split; [exists e, t; auto|exact C]. Qed.
Lemma significant_unique x sig v w : significant x sig v -> significant x sig w -> v = w.
Proof.
  intros (e & t & A & B & C & D) (e' & t' & A' & B' & C' & D'). apply ten_is in A, A', D, D'. subst.
  f_equal. f_equal. f_equal. change (Qc_of_Z 10) with q10 in *. rewrite <- !pow10_succ in *.
  destruct (Z.lt_trichotomy e e') as [L|[->|L]]; [|reflexivity|]; exfalso.
  - pose proof (pow10_le (e + 1) e' ltac:(lia)). qclra.
  - pose proof (pow10_le (e' + 1) e ltac:(lia)). qclra.
Qed.
Theorem sig_functions : forall x sig v, x <> 0 -> significant x sig v ->
  (exists y, ceil_sig x sig = Ok y /\ multiple_of v y /\ x <= y /\ y < x + v) /\
  (exists y, floor_sig x sig = Ok y /\ multiple_of v y /\ y <= x /\ x < y + v) /\
  (exists y, round_sig x sig = Ok y /\ multiple_of v y /\ x - half * v <= y /\ y <= x + half * v).
Proof.
  intros x sig v N S. destruct (sig_to_ndigits x sig) as [n|e] eqn:E.
  2:{ unfold sig_to_ndigits in E. apply Qc_eqb_false in N. rewrite N in E. discriminate E. }
  destruct (sig_unit x sig n E) as (w & W & T). pose proof (significant_unique _ _ _ _ S W). subst w.
  unfold ceil_sig, floor_sig, round_sig. rewrite E. cbn [bind].
  destruct (ceil_ndigits_ok x n v T) as (A & B & C). destruct (floor_ndigits_ok x n v T) as (A' & B' & C').
  destruct (round_ndigits_ok x n v T) as (A'' & B'' & C'').
  split; [|split]; eexists; (split; [reflexivity|auto]).
Qed.
Theorem sig_exists : forall x sig, x <> 0 -> exists v, significant x sig v.
Proof.
  intros x sig N. destruct (sig_to_ndigits x sig) as [n|e] eqn:E; [destruct (sig_unit x sig n E) as (v & V & _); eauto|].
  unfold sig_to_ndigits in E. apply Qc_eqb_false in N. rewrite N in E. discriminate E.
Qed.
(* the unit is at most 10^(1-sig) of the value *)
Theorem sig_relative : forall x sig v r, significant x sig v -> ten (1 - sig) r -> v <= r * Qc_abs x.
Proof.
  intros x sig v r (e & t & A & B & C & D) R. apply ten_is in A, D, R. subst.
  replace (e + 1 - sig)%Z with (e + (1 - sig))%Z by lia. rewrite pow10_plus.
  pose proof (pow10_pos (1 - sig)). generalize dependent (pow10 (1 - sig)). generalize dependent (pow10 e). intros; qcnra.
Qed.
Theorem sig_zero : forall sig, ceil_sig 0 sig = Err ValueError /\ floor_sig 0 sig = Err ValueError /\ round_sig 0 sig = Err ValueError.
Proof. intros. repeat split; reflexivity. Qed.

(* ---- least common multiple ---- *)
Lemma lcm_step m i : (m <> 0 \/ i <> 0)%Z ->
  let m' := (m * i / Z.gcd m i)%Z in (m | m')%Z /\ (i | m')%Z /\ (forall c, (m | c)%Z -> (i | c)%Z -> (m' | c)%Z) /\ (m' = 0 <-> m = 0 \/ i = 0)%Z.
Proof.
  intros N. assert (G : (Z.gcd m i <> 0)%Z) by (intros G; apply Z.gcd_eq_0 in G; lia).
  assert (E : (m * i / Z.gcd m i = m * (i / Z.gcd m i))%Z) by (apply Z.divide_div_mul_exact; [exact G|apply Z.gcd_divide_r]).
  cbn zeta. rewrite E. pose proof (Z.divide_abs_r m (m * (i / Z.gcd m i))) as A. pose proof (Z.divide_abs_r i (m * (i / Z.gcd m i))) as B.
  change (Z.abs (m * (i / Z.gcd m i))) with (Z.lcm m i) in A, B.
  split; [apply A, Z.divide_lcm_l|]. split; [apply B, Z.divide_lcm_r|]. split.
  - intros c C D. apply Z.divide_abs_l. change (Z.abs (m * (i / Z.gcd m i))) with (Z.lcm m i). now apply Z.lcm_least.
  - pose proof (Z.lcm_eq_0 m i) as L. unfold Z.lcm in L. rewrite Z.abs_0_iff in L. exact L.
Qed.
Lemma lcm_from_ok l : forall m r, lcm_from m l = Ok r -> (m | r)%Z /\ Forall (fun i => (i | r)%Z) l /\
  forall c, (m | c)%Z -> Forall (fun i => (i | c)%Z) l -> (r | c)%Z.
Proof.
  induction l as [|i l IH]; intros m r H; cbn [lcm_from] in H.
  - inversion H; subst. split; [apply Z.divide_refl|]. split; [constructor|auto].
  - cbn zeta in H. destruct (Z.eqb_spec (Z.gcd m i) 0) as [G|G]; [discriminate H|].
    assert (N : (m <> 0 \/ i <> 0)%Z).
    { destruct (Z.eq_dec m 0); [|auto]. destruct (Z.eq_dec i 0); [|auto]. subst. destruct (G eq_refl). }
    destruct (lcm_step m i N) as (A & B & C & _). apply IH in H. destruct H as (P & Q & R).
    split; [eapply Z.divide_trans; eauto|]. split; [constructor; [eapply Z.divide_trans; eauto|exact Q]|].
    intros c D F. inversion F; subst. apply R; auto.
Qed.
Theorem lcm_ok : forall l m, lcm l = Ok m -> Forall (fun i => (i | m)%Z) l /\
  forall c, Forall (fun i => (i | c)%Z) l -> (m | c)%Z.
Proof.
  intros l m H. apply lcm_from_ok in H. destruct H as (_ & A & B). split; [exact A|]. intros c F. apply B; [apply Z.divide_1_l|exact F].
Qed.
Lemma lcm_from_total l : forall m, (m <> 0)%Z -> Forall (fun i => i <> 0)%Z l -> exists r, lcm_from m l = Ok r /\ (r <> 0)%Z.
Proof.
  induction l as [|i l IH]; intros m N F; cbn [lcm_from]; [eauto|]. inversion F; subst. cbn zeta.
  destruct (Z.eqb_spec (Z.gcd m i) 0) as [G|G]; [apply Z.gcd_eq_0 in G; lia|].
  destruct (lcm_step m i (or_introl N)) as (_ & _ & _ & E). apply IH; [|assumption]. intros Z. apply E in Z. lia.
Qed.
Lemma lcm_from_pos l : forall m r, (0 < m)%Z -> Forall (fun i => 0 < i)%Z l -> lcm_from m l = Ok r -> (0 < r)%Z.
Proof.
  induction l as [|i l IH]; intros m r N F H; cbn [lcm_from] in H; [inversion H; subst; exact N|]. inversion F; subst. cbn zeta in H.
  destruct (Z.eqb_spec (Z.gcd m i) 0) as [G|G]; [discriminate H|].
  apply IH in H; [exact H| |assumption]. pose proof (Z.gcd_nonneg m i).
  assert (D : (Z.gcd m i | m * i)%Z) by (apply Z.divide_mul_l, Z.gcd_divide_l). destruct D as [q D].
  rewrite D, Z.div_mul by exact G. nia.
Qed.
Theorem lcm_positive : forall l, Forall (fun i => 0 < i)%Z l -> exists m, lcm l = Ok m /\ (0 < m)%Z.
Proof.
  intros l F. destruct (lcm_from_total l 1 ltac:(lia)) as (r & R & _).
  - eapply Forall_impl; [|exact F]. cbn. intros; lia.
  - exists r. split; [exact R|]. apply (lcm_from_pos l 1 r); [lia|exact F|exact R].
Qed.
Lemma lcm_from_error l : forall m e, lcm_from m l = Err e -> e = ZeroDivisionError.
Proof.
  induction l as [|i l IH]; intros m e H; cbn [lcm_from] in H; [discriminate H|]. cbn zeta in H.
  destruct (Z.gcd m i =? 0)%Z; [inversion H; reflexivity|eauto].
Qed.
Lemma lcm_from_zeros l : forall m, (exists r, lcm_from m l = Ok r) <-> (zeros l + (if (m =? 0)%Z then 1 else 0) <= 1)%nat.
Proof.
  induction l as [|i l IH]; intros m.
  - cbn. split; [intros; destruct (m =? 0)%Z; lia|eauto].
  - cbn [lcm_from]. cbn zeta. unfold zeros. cbn [filter]. fold (zeros l).
    destruct (Z.eqb_spec (Z.gcd m i) 0) as [G|G].
    + apply Z.gcd_eq_0 in G. destruct G; subst. cbn [Z.eqb length]. split; [intros [r H]; discriminate H|unfold zeros; lia].
    + assert (N : (m <> 0 \/ i <> 0)%Z).
      { destruct (Z.eq_dec m 0); [|auto]. destruct (Z.eq_dec i 0); [|auto]. subst. destruct (G eq_refl). }
      destruct (lcm_step m i N) as (_ & _ & _ & E). rewrite IH.
      destruct (Z.eqb_spec (m * i / Z.gcd m i) 0) as [Z|Z], (Z.eqb_spec i 0), (Z.eqb_spec m 0); cbn [length]; unfold zeros; try lia;
        first [apply E in Z; lia | exfalso; apply Z, E; auto].
Qed.
Theorem lcm_defined : forall l, (exists m, lcm l = Ok m) <-> (zeros l <= 1)%nat.
Proof. intros l. unfold lcm. rewrite lcm_from_zeros. cbn. rewrite Nat.add_0_r. reflexivity. Qed.
Theorem lcm_error : forall l e, lcm l = Err e -> e = ZeroDivisionError.
Proof. intros l e. apply lcm_from_error. Qed.

(* ---- weighted sums ---- *)
Lemma total_sum l : total l = sum l. Proof. reflexivity. Qed.
Lemma total_dot l : forall ws, total (map (fun p => fst p * snd p) (combine l ws)) = dot l ws.
Proof. induction l as [|v l IH]; intros [|w ws]; try reflexivity. cbn [combine map total fold_right fst snd dot]. rewrite <- IH. reflexivity. Qed.
Lemma total_const (ws : list Qc) c : total (map (fun w => c * w) ws) = c * total ws.
Proof. induction ws as [|w ws IH]; cbn [map total fold_right]; [ring|]. unfold total in IH. rewrite IH. fold (total ws). ring. Qed.
Lemma total_nonneg ws : Forall (fun w => 0 <= w) ws -> 0 <= total ws.
Proof. induction 1; cbn; [apply Qcle_refl|]. fold (total l). qclra. Qed.
Lemma dot_bounds a b l : forall ws, length l = length ws -> Forall (fun v => between a v b) l -> Forall (fun w => 0 <= w) ws ->
  a * total ws <= dot l ws /\ dot l ws <= b * total ws.
Proof.
  induction l as [|v l IH]; intros [|w ws] L F G; cbn in L; try lia.
  - cbn. split; qclra.
  - inversion F; subst. inversion G; subst. cbn [dot total fold_right]. fold (total ws).
    destruct (IH ws ltac:(lia) H2 H4) as [A B]. destruct H1. split; qcnra.
Qed.
Lemma quotient_some a b : b <> 0 -> quotient a b = Some (a / b).
Proof. intros H. unfold quotient. apply Qc_eqb_false in H. rewrite H. reflexivity. Qed.
Theorem weighted_ok : forall a a' l ws, (a || a' = true)%bool -> (2 <= length l)%nat -> length ws = length l -> total ws <> 0 ->
  exists m, weightedsum (Many a l) (Some (Many a' ws)) = Ok (Some m) /\ m * total ws = dot l ws.
Proof.
  intros a a' l ws A L E T. exists (dot l ws / total ws). split; [|apply div_mul; exact T].
  destruct l as [|v [|v' l]]; cbn in L; try lia. destruct ws as [|w [|w' ws]]; try discriminate E.
  unfold weightedsum. rewrite A. cbn [negb]. rewrite <- E, Nat.eqb_refl. rewrite (quotient_some _ _ T), total_dot. reflexivity.
Qed.
Theorem weighted_between : forall a a' l ws m lo hi, (2 <= length l)%nat -> length ws = length l ->
  Forall (fun w => 0 <= w) ws -> Forall (fun v => between lo v hi) l ->
  weightedsum (Many a l) (Some (Many a' ws)) = Ok (Some m) -> between lo m hi.
Proof.
  intros a a' l ws m lo hi L E F B H.
  assert (A : (a || a' = true)%bool). { destruct (a || a')%bool eqn:A; [reflexivity|]. destruct l as [|v [|v' l]]; cbn in L; try lia. unfold weightedsum in H. rewrite A in H. discriminate H. }
  assert (T : total ws <> 0).
  { intros T. destruct l as [|v [|v' l]]; cbn in L; try lia. destruct ws as [|w [|w' ws]]; try discriminate E.
    unfold weightedsum in H. rewrite A in H. cbn [negb] in H. rewrite <- E, Nat.eqb_refl in H.
    unfold quotient in H. rewrite T in H. discriminate H. }
  destruct (weighted_ok a a' l ws A L E T) as (m' & M & D). rewrite M in H.
  assert (m' = m) by congruence. subst m'. clear H M.
  destruct (dot_bounds lo hi l ws (eq_sym E) B F) as [P Q]. rewrite <- D in P, Q. clear D.
  pose proof (total_nonneg ws F) as N.
  assert (N' : 0 < total ws). { destruct (Qc_ltb 0 (total ws)) eqn:X; qc_bool; [exact X|]. destruct T. now apply Qcle_antisym. }
  generalize dependent (total ws). intros t T P Q N N'.
  split; [destruct (Qc_leb lo m) eqn:X|destruct (Qc_leb m hi) eqn:X]; qc_bool; try exact X; exfalso; qcnra.
Qed.
Theorem mean_ok : forall a l w, (2 <= length l)%nat -> (w = None \/ exists x, w = Some (One x)) ->
  exists m, weightedsum (Many a l) w = Ok (Some m) /\ m * Qc_of_Z (Z.of_nat (length l)) = total l.
Proof.
  intros a l w L W. assert (T : Qc_of_Z (Z.of_nat (length l)) <> 0) by (intros T; apply (Qc_of_Z_inj _ 0) in T; lia).
  exists (total l / Qc_of_Z (Z.of_nat (length l))). split; [|now apply div_mul].
  destruct l as [|v [|v' l]]; cbn [length] in L; try lia. unfold weightedsum. rewrite (quotient_some _ _ T).
  destruct W as [->|[x ->]]; reflexivity.
Qed.
Theorem one_ok : forall a v w, weightedsum (One v) w = Ok (Some v) /\ weightedsum (Many a [v]) w = Ok (Some v).
Proof. intros. split; reflexivity. Qed.
Theorem weighted_error : forall v w e, weightedsum v w = Err e ->
  exists a l a' ws, v = Many a l /\ w = Some (Many a' ws) /\
    ((e = TypeError /\ a = false /\ a' = false) \/ (e = ValueError /\ length l <> length ws) \/
     (e = ZeroDivisionError /\ l = [] /\ ws = [])).
Proof.
  intros v w e H. destruct v as [v|a l]; [discriminate H|]. exists a, l.
  destruct l as [|v [|v' l]]; try discriminate H; (destruct w as [[x|a' ws]|]; [discriminate H| |discriminate H]);
    exists a', ws; (split; [reflexivity|split; [reflexivity|]]); unfold weightedsum in H; destruct a, a'; cbn [orb negb] in H;
    try (inversion H; left; auto; fail); destruct ws as [|w [|w' ws]]; cbn [length] in *;
    try discriminate H; try (inversion H; right; right; auto; fail); try (inversion H; right; left; split; [reflexivity|discriminate]; fail);
    (destruct (Nat.eqb_spec (S (S (length l))) (S (S (length ws)))); [discriminate H|inversion H; auto]).
Qed.
(* one weight in an array: the sum of the values *)
Theorem broadcast_sum : forall l w, (2 <= length l)%nat -> w <> 0 ->
  weightedsum (Many true l) (Some (Many true [w])) = Ok (Some (total l)).
Proof.
  intros l w L N. destruct l as [|v [|v' l]]; cbn [length] in L; try lia. set (u := v :: v' :: l). 
  change (Ok (quotient (total (map (fun v => v * w) u)) w) = Ok (Some (total u))). rewrite (quotient_some _ _ N). f_equal. f_equal.
  assert (E : total (map (fun v => v * w) u) = w * total u).
  { rewrite <- total_const. f_equal. apply map_ext. intros; ring. }
  rewrite E. generalize (total u). intros t. field. exact N.
Qed.
