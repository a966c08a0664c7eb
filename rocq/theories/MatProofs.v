From Verif Require Import BaseProofs MatModel.
Local Open Scope Qc_scope.

Local Notation "n '<' m" := (lt n m) (at level 70) : nat_scope.
Lemma qsumn_ext n f g : (forall i, (i < n)%nat -> f i = g i) -> qsumn n f = qsumn n g.
Proof. intros H. induction n as [|n IH]; [reflexivity|]. cbn. rewrite IH, H by auto with arith. reflexivity. Qed.
Lemma qsumn_zero n f : (forall i, (i < n)%nat -> f i = 0) -> qsumn n f = 0.
Proof. intros H. induction n as [|n IH]; [reflexivity|]. cbn [qsumn]. rewrite IH, H by auto with arith. ring. Qed.
Lemma qsumn_add n f g : qsumn n (fun i => f i + g i) = qsumn n f + qsumn n g.
Proof. induction n as [|n IH]; cbn [qsumn]; [ring|]. rewrite IH. ring. Qed.
Lemma qsumn_mul n a f : qsumn n (fun i => a * f i) = a * qsumn n f.
Proof. induction n as [|n IH]; cbn [qsumn]; [ring|]. rewrite IH. ring. Qed.
Lemma qsumn_swap n m g : qsumn n (fun i => qsumn m (fun j => g i j)) = qsumn m (fun j => qsumn n (fun i => g i j)).
Proof.
  induction n as [|n IH]; cbn [qsumn].
  - symmetry. now apply qsumn_zero.
  - rewrite IH, <- qsumn_add. reflexivity.
Qed.
Lemma qsumn_first n f : qsumn (S n) f = f O + qsumn n (fun i => f (S i)).
Proof. induction n as [|n IH]; [cbn; ring|]. cbn [qsumn] in *. rewrite IH. ring. Qed.
(* the indices other than k *)
Definition skip (k j : nat) : nat := if (j <? k)%nat then j else S j.
Lemma qsumn_skip n k f : (k <= n)%nat -> qsumn (S n) f = f k + qsumn n (fun j => f (skip k j)).
Proof.
  revert k. induction n as [|n IH]; intros k Hk.
  - assert (k = O) as -> by lia. cbn [qsumn]. ring.
  - destruct (Nat.eq_dec k (S n)) as [->|Hn].
    + rewrite (qsumn_ext (S n) (fun j => f (skip (S n) j)) f).
      * cbn [qsumn]. ring.
      * intros j Hj. unfold skip. destruct (Nat.ltb_spec j (S n)); [reflexivity|lia].
    + change (qsumn (S n) f + f (S n) = f k + qsumn (S n) (fun j => f (skip k j))).
      rewrite (IH k) by lia. cbn [qsumn]. unfold skip at 3. destruct (Nat.ltb_spec n k); [lia|]. ring.
Qed.
Lemma qsumn_pick n k f : (k < n)%nat -> (forall j, (j < n)%nat -> j <> k -> f j = 0) -> qsumn n f = f k.
Proof.
  intros Hk H. destruct n as [|n]; [lia|]. rewrite (qsumn_skip n k) by lia. rewrite qsumn_zero; [ring|].
  intros j Hj. apply H; unfold skip; destruct (Nat.ltb_spec j k); lia.
Qed.
Lemma qsumn_two n k f : (S k < n)%nat -> (forall j, (j < n)%nat -> j <> k -> j <> S k -> f j = 0) -> qsumn n f = f k + f (S k).
Proof.
  intros Hk H. destruct n as [|n]; [lia|]. rewrite (qsumn_skip n k) by lia. f_equal.
  rewrite (qsumn_pick n k) by (try lia; intros j Hj Hn; apply H; unfold skip; destruct (Nat.ltb_spec j k); lia).
  unfold skip. rewrite Nat.ltb_irrefl. reflexivity.
Qed.

(* ---- determinants ---- *)
Lemma det_ext n M M' : (forall i j, (i < n)%nat -> (j < n)%nat -> M i j = M' i j) -> det n M = det n M'.
Proof.
  revert M M'. induction n as [|n IH]; intros M M' H; [reflexivity|]. cbn [det]. apply qsumn_ext. intros k Hk.
  rewrite H by lia. f_equal. apply IH. intros i j Hi Hj. unfold minor. apply H; [lia|]. destruct (Nat.ltb_spec j k); lia.
Qed.
Lemma minor_setcol_same M k v i j : minor (setcol M k v) k i j = minor M k i j.
Proof. unfold minor, setcol. destruct (Nat.ltb_spec j k); [destruct (Nat.eqb_spec j k)|destruct (Nat.eqb_spec (S j) k)]; try lia; reflexivity. Qed.
Definition lower (k j : nat) : nat := if (j <? k)%nat then j else pred j.
Lemma minor_setcol_other M k j v i c : k <> j -> minor (setcol M j v) k i c = setcol (minor M k) (lower k j) (fun i => v (S i)) i c.
Proof.
  intros H. unfold minor, setcol, lower. destruct (Nat.ltb_spec j k), (Nat.ltb_spec c k);
    repeat match goal with |- context [Nat.eqb ?a ?b] => destruct (Nat.eqb_spec a b) end; try lia; reflexivity.
Qed.
Lemma det_linear n M j a v w : (j < n)%nat ->
  det n (setcol M j (fun i => a * v i + w i)) = a * det n (setcol M j v) + det n (setcol M j w).
Proof.
  revert M j v w. induction n as [|n IH]; intros M j v w Hj; [lia|]. cbn [det].
  rewrite <- qsumn_mul, <- qsumn_add. apply qsumn_ext. intros k Hk.
  destruct (Nat.eq_dec k j) as [->|Hn].
  - rewrite !(det_ext n (minor (setcol M j _) j) (minor M j)) by (intros; apply minor_setcol_same).
    unfold setcol. rewrite Nat.eqb_refl. ring.
  - rewrite !(det_ext n (minor (setcol M j _) k) (setcol (minor M k) (lower k j) _)) by (intros; now apply minor_setcol_other).
    rewrite IH by (unfold lower; destruct (Nat.ltb_spec j k); lia).
    assert (forall u, setcol M j u O k = M O k) as E by (intros u; unfold setcol; destruct (Nat.eqb_spec k j); congruence).
    rewrite !E. ring.
Qed.
Lemma det_zero_col n M j : (j < n)%nat -> det n (setcol M j (fun _ => 0)) = 0.
Proof.
  intros H. assert (E := det_linear n M j 1 (fun _ => 0) (fun _ => 0) H). cbv beta in E.
  rewrite (det_ext n (setcol M j (fun _ => 1 * 0 + 0)) (setcol M j (fun _ => 0))) in E.
  - set (d := det n _) in *. replace d with (1 * d + d - d) by ring. rewrite <- E. ring.
  - intros r c _ _. unfold setcol. destruct (c =? j)%nat; [ring|reflexivity].
Qed.
Lemma alternate_S k : alternate (S k) = - alternate k.
Proof. unfold alternate. rewrite Nat.even_succ, <- Nat.negb_even. destruct (Nat.even k); cbn; ring. Qed.
Lemma det_adjacent n M j : (S j < n)%nat -> (forall i, (i < n)%nat -> M i j = M i (S j)) -> det n M = 0.
Proof.
  revert M j. induction n as [|n IH]; intros M j Hj H; [lia|]. cbn [det].
  rewrite (qsumn_two (S n) j); [|assumption|].
  2:{ intros k Hk Hn Hn'. assert (det n (minor M k) = 0) as ->; [|ring].
      apply (IH _ (lower k j)); [unfold lower; destruct (Nat.ltb_spec j k); lia|].
      intros i Hi. unfold minor, lower. destruct (Nat.ltb_spec j k).
      - destruct (Nat.ltb_spec j k), (Nat.ltb_spec (S j) k); try lia. apply H. lia.
      - destruct j as [|j]; [lia|]. cbn [pred]. destruct (Nat.ltb_spec j k), (Nat.ltb_spec (S j) k); try lia. apply H. lia. }
  rewrite alternate_S, H by lia. rewrite (det_ext n (minor M (S j)) (minor M j)); [ring|].
  intros i c Hi Hc. unfold minor. destruct (Nat.ltb_spec c (S j)), (Nat.ltb_spec c j); try lia; try reflexivity.
  assert (c = j) as -> by lia. apply H. lia.
Qed.

Definition col (M : nat -> nat -> Qc) (j : nat) : nat -> Qc := fun i => M i j.
Lemma setcol_self M j r c : setcol M j (col M j) r c = M r c.
Proof. unfold setcol, col. destruct (Nat.eqb_spec c j); congruence. Qed.
Definition pairof M j (u v : nat -> Qc) := setcol (setcol M j u) (S j) v.
Lemma pair_lin_r n M j u v w : (S j < n)%nat -> det n (pairof M j u (fun i => v i + w i)) = det n (pairof M j u v) + det n (pairof M j u w).
Proof.
  intros H. unfold pairof. assert (E := det_linear n (setcol M j u) (S j) 1 v w H).
  rewrite Qcmult_1_l in E. rewrite <- E. apply det_ext. intros r c _ _. unfold setcol. destruct (c =? S j)%nat; [ring|reflexivity].
Qed.
Lemma setcol_comm M j k u v r c : j <> k -> setcol (setcol M j u) k v r c = setcol (setcol M k v) j u r c.
Proof. intros H. unfold setcol. destruct (Nat.eqb_spec c j), (Nat.eqb_spec c k); congruence. Qed.
Lemma pair_lin_l n M j u v w : (S j < n)%nat -> det n (pairof M j (fun i => u i + v i) w) = det n (pairof M j u w) + det n (pairof M j v w).
Proof.
  intros H. unfold pairof. assert (E := det_linear n (setcol M (S j) w) j 1 u v ltac:(lia)).
  rewrite Qcmult_1_l in E.
  rewrite !(det_ext n (setcol (setcol M j _) (S j) w) (setcol (setcol M (S j) w) j _)) by (intros; apply setcol_comm; lia).
  rewrite <- E. apply det_ext. intros r c _ _. unfold setcol. destruct (c =? j)%nat; [ring|reflexivity].
Qed.
Lemma pair_same n M j u : (S j < n)%nat -> det n (pairof M j u u) = 0.
Proof.
  intros H. apply (det_adjacent n _ j H). intros i _. unfold pairof, setcol. rewrite !Nat.eqb_refl.
  destruct (Nat.eqb_spec j (S j)); [lia|reflexivity].
Qed.
Lemma pair_flip n M j u v : (S j < n)%nat -> det n (pairof M j u v) = - det n (pairof M j v u).
Proof.
  intros H. assert (E := pair_same n M j (fun i => u i + v i) H).
  rewrite pair_lin_l, !pair_lin_r, !pair_same in E by assumption.
  replace (det n (pairof M j u v)) with (0 + det n (pairof M j u v) + (det n (pairof M j v u) + 0) - det n (pairof M j v u)) by ring.
  rewrite E. ring.
Qed.
Lemma det_equal_columns n M i j : (i < j)%nat -> (j < n)%nat -> (forall r, (r < n)%nat -> M r i = M r j) -> det n M = 0.
Proof.
  intros Hij. revert M. induction j as [|j IH]; [lia|]. intros M Hj H.
  destruct (Nat.eq_dec i j) as [->|Hn]; [now apply (det_adjacent n M j)|].
  assert (det n M = det n (pairof M j (col M j) (col M (S j)))) as ->.
  { apply det_ext. intros r c _ _. unfold pairof, setcol, col. destruct (Nat.eqb_spec c (S j)); [congruence|].
    destruct (Nat.eqb_spec c j); congruence. }
  rewrite pair_flip by assumption. rewrite (IH ltac:(lia)); [ring|lia|].
  intros r Hr. unfold pairof, setcol, col. rewrite Nat.eqb_refl.
  destruct (Nat.eqb_spec i (S j)); [lia|]. destruct (Nat.eqb_spec i j); [lia|]. destruct (Nat.eqb_spec j (S j)); [lia|]. now apply H.
Qed.
Lemma det_column_of n M j k : (j < n)%nat -> (k < n)%nat -> j <> k -> det n (setcol M j (col M k)) = 0.
Proof.
  intros Hj Hk Hn. destruct (Nat.lt_ge_cases j k).
  - apply (det_equal_columns n _ j k); [assumption|assumption|]. intros r _. unfold setcol, col. rewrite Nat.eqb_refl.
    destruct (Nat.eqb_spec k j); [congruence|reflexivity].
  - apply (det_equal_columns n _ k j); [lia|assumption|]. intros r _. unfold setcol, col. rewrite Nat.eqb_refl.
    destruct (Nat.eqb_spec k j); [congruence|reflexivity].
Qed.
(* Cramer's rule for a right hand side that is a combination of the columns *)
Lemma det_combination n M j x m : (j < n)%nat -> (m <= n)%nat ->
  det n (setcol M j (fun i => qsumn m (fun k => x k * M i k))) = if (j <? m)%nat then x j * det n M else 0.
Proof.
  intros Hj. induction m as [|m IH]; intros Hm.
  - cbn [qsumn]. now apply det_zero_col.
  - rewrite (det_ext n _ (setcol M j (fun i => x m * col M m i + qsumn m (fun k => x k * M i k)))).
    2:{ intros r c _ _. unfold setcol, col. cbn [qsumn]. destruct (c =? j)%nat; [ring|reflexivity]. }
    rewrite det_linear, IH by lia. destruct (Nat.eq_dec j m) as [->|Hn].
    + rewrite (det_ext n _ M) by (intros; apply setcol_self).
      destruct (Nat.ltb_spec m m), (Nat.ltb_spec m (S m)); try lia. ring.
    + rewrite det_column_of by lia. destruct (Nat.ltb_spec j m), (Nat.ltb_spec j (S m)); try lia; ring.
Qed.
Definition solves (n : nat) (M : nat -> nat -> Qc) (b x : nat -> Qc) : Prop :=
  forall i, (i < n)%nat -> qsumn n (fun k => M i k * x k) = b i.
Lemma cramer_rule n M b x : solves n M b x -> forall j, (j < n)%nat -> det n (setcol M j b) = x j * det n M.
Proof.
  intros H j Hj. rewrite <- (Nat.ltb_lt j n) in Hj. assert (E := det_combination n M j x n). rewrite Hj in E.
  apply Nat.ltb_lt in Hj. rewrite <- E by lia. apply det_ext. intros r c Hr _. unfold setcol. destruct (c =? j)%nat; [|reflexivity].
  rewrite <- H by assumption. apply qsumn_ext. intros; ring.
Qed.

(* n + 1 vectors with n coordinates are dependent *)
Lemma skip_ne k j : skip k j <> k.
Proof. unfold skip. destruct (Nat.ltb_spec j k); lia. Qed.
Lemma skip_surj k i n : i <> k -> (i < S n)%nat -> (k <= n)%nat -> exists j, (j < n)%nat /\ skip k j = i.
Proof.
  intros H Hi Hk. unfold skip. destruct (Nat.lt_ge_cases i k).
  - exists i. split; [lia|]. destruct (Nat.ltb_spec i k); lia.
  - exists (pred i). split; [lia|]. destruct (Nat.ltb_spec (pred i) k); lia.
Qed.
Lemma Qc_eq_or (x y : Qc) : x = y \/ x <> y.
Proof. destruct (Qc_eq_dec x y); auto. Qed.
Lemma first_nonzero n (f : nat -> Qc) : (exists k, (k < n)%nat /\ f k <> 0) \/ (forall k, (k < n)%nat -> f k = 0).
Proof.
  induction n as [|n [[k [Hk H]]|H]]; [right; lia| left; exists k; split; [lia|assumption] |].
  destruct (Qc_eq_or (f n) 0) as [E|E]; [|left; exists n; split; [lia|assumption]].
  right. intros k Hk. destruct (Nat.eq_dec k n) as [->|]; [assumption|]. apply H. lia.
Qed.
Definition unskip (k j : nat) : nat := if (j <? k)%nat then j else pred j.
Lemma unskip_skip k j : unskip k (skip k j) = j.
Proof. unfold unskip, skip. destruct (Nat.ltb_spec j k); [destruct (Nat.ltb_spec j k); lia|destruct (Nat.ltb_spec (S j) k); lia]. Qed.
Lemma qsumn_if_r n k X c w : qsumn n (fun j => (if (skip k j =? k)%nat then X else c (unskip k (skip k j))) * w (skip k j)) = qsumn n (fun j => c j * w (skip k j)).
Proof.
  apply qsumn_ext. intros j _. destruct (Nat.eqb_spec (skip k j) k) as [E|_]; [now apply skip_ne in E|]. now rewrite unskip_skip.
Qed.
Lemma qsumn_if_l n k X c w : qsumn n (fun j => w (skip k j) * (if (skip k j =? k)%nat then X else c (unskip k (skip k j)))) = qsumn n (fun j => w (skip k j) * c j).
Proof.
  apply qsumn_ext. intros j _. destruct (Nat.eqb_spec (skip k j) k) as [E|_]; [now apply skip_ne in E|]. now rewrite unskip_skip.
Qed.
Lemma dependent n (v : nat -> nat -> Qc) : exists c, (exists k, (k < S n)%nat /\ c k <> 0) /\
  forall i, (i < n)%nat -> qsumn (S n) (fun k => c k * v k i) = 0.
Proof.
  revert v. induction n as [|n IH]; intros v.
  - exists (fun _ => 1). split; [exists O; split; [lia|discriminate]|lia].
  - destruct (first_nonzero (S (S n)) (fun k => v k n)) as [[k [Hk Hv]]|H0].
    + destruct (IH (fun j i => v (skip k j) i - v (skip k j) n / v k n * v k i)) as [c [[j [Hj Hc]] H]].
      exists (fun m => if (m =? k)%nat then - qsumn (S n) (fun j => c j * (v (skip k j) n / v k n)) else c (unskip k m)).
      assert (forall j, c (unskip k (skip k j)) = c j) as Hcs by (intros; now rewrite unskip_skip).
      split.
      { exists (skip k j). split; [unfold skip; destruct (Nat.ltb_spec j k); lia|].
        destruct (Nat.eqb_spec (skip k j) k) as [E|_]; [now apply skip_ne in E|]. now rewrite Hcs. }
      assert (forall i, qsumn (S (S n)) (fun m => (if (m =? k)%nat then - qsumn (S n) (fun j => c j * (v (skip k j) n / v k n)) else c (unskip k m)) * v m i)
        = qsumn (S n) (fun j => c j * (v (skip k j) i - v (skip k j) n / v k n * v k i))) as HE.
      { intros i. rewrite (qsumn_skip (S n) k) by lia. rewrite Nat.eqb_refl.
        rewrite (qsumn_ext (S n) (fun j0 => c j0 * (v (skip k j0) i - v (skip k j0) n / v k n * v k i))
          (fun j0 => c j0 * v (skip k j0) i + - v k i * (c j0 * (v (skip k j0) n / v k n)))) by (intros; ring).
        rewrite qsumn_add, qsumn_mul. rewrite (qsumn_if_r (S n) k _ c (fun m => v m i)). ring. }
      intros i Hi. rewrite HE. destruct (Nat.eq_dec i n) as [->|Hn].
      * apply qsumn_zero. intros j0 Hj0. field. assumption.
      * apply H. lia.
    + destruct (IH v) as [c [[k [Hk Hc]] H]].
      exists (fun m => if (m =? S n)%nat then 0 else c m). split.
      { exists k. split; [lia|]. destruct (Nat.eqb_spec k (S n)); [lia|assumption]. }
      intros i Hi. destruct (Nat.eq_dec i n) as [->|Hn].
      * apply qsumn_zero. intros j Hj. rewrite H0 by assumption. ring.
      * cbn [qsumn]. rewrite (Nat.eqb_refl (S n)). etransitivity; [|apply (H i); lia]. cbn [qsumn].
        rewrite (qsumn_ext n _ (fun k0 => c k0 * v k0 i)).
        2:{ intros j Hj. destruct (Nat.eqb_spec j (S n)); [lia|reflexivity]. }
        destruct (Nat.eqb_spec n (S n)); [lia|]. ring.
Qed.

Lemma kernel_trivial n M x : det n M <> 0 -> solves n M (fun _ => 0) x -> forall k, (k < n)%nat -> x k = 0.
Proof.
  intros Hd H k Hk. assert (E := cramer_rule n M _ x H k Hk). rewrite det_zero_col in E by assumption.
  destruct (Qc_eq_or (x k) 0) as [|Hx]; [assumption|]. exfalso.
  apply (Qcmult_integral (x k)) in E || (symmetry in E; apply Qcmult_integral in E); tauto.
Qed.
Lemma solution_exists n M b : det n M <> 0 -> exists x, solves n M b x.
Proof.
  intros Hd. destruct (dependent n (fun k i => if (k <? n)%nat then M i k else b i)) as [c [[k [Hk Hc]] H]].
  assert (forall i, (i < n)%nat -> qsumn n (fun k => M i k * c k) + c n * b i = 0) as H'.
  { intros i Hi. etransitivity; [|apply (H i Hi)]. cbn [qsumn]. rewrite Nat.ltb_irrefl. f_equal. apply qsumn_ext. intros j Hj.
    destruct (Nat.ltb_spec j n); [ring|lia]. }
  destruct (Qc_eq_or (c n) 0) as [E|E].
  - exfalso. destruct (Nat.eq_dec k n) as [->|Hn]; [contradiction|]. apply Hc.
    apply (kernel_trivial n M); [assumption| |lia]. intros i Hi. etransitivity; [|apply (H' i Hi)]. rewrite E. ring.
  - exists (fun k => - c k / c n). intros i Hi.
    rewrite (qsumn_ext n _ (fun k => - / c n * (M i k * c k))) by (intros; field; assumption).
    rewrite qsumn_mul. specialize (H' i Hi).
    replace (qsumn n (fun k0 => M i k0 * c k0)) with (- (c n * b i)) by (rewrite <- (Qcplus_0_r (- (c n * b i))), <- H'; ring). field. assumption.
Qed.
Lemma cramer_solves n M b : det n M <> 0 -> solves n M b (fun j => det n (setcol M j b) / det n M).
Proof.
  intros Hd. destruct (solution_exists n M b Hd) as [x Hx]. intros i Hi. rewrite <- (Hx i Hi). apply qsumn_ext. intros k Hk.
  rewrite (cramer_rule n M b x Hx k Hk). field. assumption.
Qed.
Lemma solution_unique n M b x : det n M <> 0 -> solves n M b x -> forall j, (j < n)%nat -> x j = det n (setcol M j b) / det n M.
Proof. intros Hd Hx j Hj. rewrite (cramer_rule n M b x Hx j Hj). field. assumption. Qed.

(* a zero determinant: the columns are dependent *)
Lemma det_add_column n M j k a : (j < n)%nat -> (k < n)%nat -> j <> k -> det n (setcol M j (fun i => a * M i k + M i j)) = det n M.
Proof.
  intros Hj Hk Hn. etransitivity; [exact (det_linear n M j a (col M k) (col M j) Hj)|].
  rewrite det_column_of by assumption. rewrite (det_ext n (setcol M j (col M j)) M) by (intros; apply setcol_self). ring.
Qed.
Definition cleared (M : nat -> nat -> Qc) (k m : nat) : nat -> nat -> Qc :=
  fun i j => if (j <? m)%nat && negb (j =? k)%nat then - (M O j / M O k) * M i k + M i j else M i j.
Lemma det_cleared n M k m : (k < n)%nat -> (m <= n)%nat -> det n (cleared M k m) = det n M.
Proof.
  intros Hk. induction m as [|m IH]; intros Hm.
  - apply det_ext. reflexivity.
  - rewrite <- IH by lia. destruct (Nat.eq_dec m k) as [->|Hn].
    + apply det_ext. intros i j _ _. unfold cleared. destruct (Nat.eqb_spec j k) as [->|]; [now rewrite !andb_false_r|].
      destruct (Nat.ltb_spec j (S k)), (Nat.ltb_spec j k); try lia; reflexivity.
    + rewrite <- (det_add_column n (cleared M k m) m k (- (M O m / M O k))) by lia.
      apply det_ext. intros i j _ _. unfold setcol. unfold cleared at 2 3. rewrite Nat.eqb_refl, andb_false_r, Nat.ltb_irrefl. cbn [andb].
      unfold cleared. destruct (Nat.eqb_spec j m) as [->|Hj].
      * destruct (Nat.ltb_spec m (S m)); [|lia]. destruct (Nat.eqb_spec m k); [congruence|]. reflexivity.
      * destruct (Nat.ltb_spec j (S m)), (Nat.ltb_spec j m); try lia; reflexivity.
Qed.
Lemma alternate_ne k : alternate k <> 0.
Proof. unfold alternate. destruct (Nat.even k); discriminate. Qed.
Lemma singular n M : det n M = 0 -> exists x, (exists k, (k < n)%nat /\ x k <> 0) /\ solves n M (fun _ => 0) x.
Proof.
  revert M. induction n as [|n IH]; intros M Hd; [discriminate|].
  destruct (first_nonzero (S n) (fun k => M O k)) as [[k [Hk Hv]]|H0].
  - rewrite <- (det_cleared (S n) M k (S n)) in Hd by lia. cbn [det] in Hd.
    rewrite (qsumn_pick (S n) k) in Hd; [|assumption|].
    2:{ intros j Hj Hn. assert (cleared M k (S n) O j = 0) as ->; [|ring]. unfold cleared.
        destruct (Nat.ltb_spec j (S n)); [|lia]. destruct (Nat.eqb_spec j k); [congruence|]. cbn [andb negb]. field. assumption. }
    assert (cleared M k (S n) O k = M O k) as E by (unfold cleared; now rewrite Nat.eqb_refl, andb_false_r).
    rewrite E in Hd. apply Qcmult_integral in Hd as [Hd|Hd].
    { apply Qcmult_integral in Hd as [Hd|Hd]; [now apply alternate_ne in Hd|contradiction]. }
    apply IH in Hd as [c [[j [Hj Hc]] H]].
    exists (fun m => if (m =? k)%nat then - qsumn n (fun j => c j * (M O (skip k j) / M O k)) else c (unskip k m)).
    assert (forall j, c (unskip k (skip k j)) = c j) as Hcs by (intros; now rewrite unskip_skip).
    split.
    { exists (skip k j). split; [unfold skip; destruct (Nat.ltb_spec j k); lia|].
      destruct (Nat.eqb_spec (skip k j) k) as [E'|_]; [now apply skip_ne in E'|]. now rewrite Hcs. }
    intros i Hi. rewrite (qsumn_skip n k) by lia. rewrite Nat.eqb_refl.
    transitivity (qsumn n (fun j0 => (- (M O (skip k j0) / M O k) * M i k + M i (skip k j0)) * c j0)).
    { rewrite (qsumn_ext n (fun j0 => (- (M O (skip k j0) / M O k) * M i k + M i (skip k j0)) * c j0)
        (fun j0 => M i (skip k j0) * c j0 + - M i k * (c j0 * (M O (skip k j0) / M O k)))) by (intros; ring).
      rewrite qsumn_add, qsumn_mul. rewrite (qsumn_if_l n k _ c (fun m => M i m)). ring. }
    destruct i as [|i].
    + apply qsumn_zero. intros j0 Hj0. field. assumption.
    + etransitivity; [|apply (H i); lia]. apply qsumn_ext. intros j0 Hj0. f_equal. unfold minor. fold (skip k j0). unfold cleared.
      destruct (Nat.eqb_spec (skip k j0) k) as [E'|_]; [now apply skip_ne in E'|].
      assert (skip k j0 < S n)%nat as Hs by (unfold skip; destruct (Nat.ltb_spec j0 k); lia). apply Nat.ltb_lt in Hs. rewrite Hs. reflexivity.
  - destruct (dependent n (fun k i => M (S i) k)) as [c [Hc H]]. exists c. split; [assumption|].
    intros [|i] Hi.
    + apply qsumn_zero. intros j Hj. rewrite H0 by assumption. ring.
    + etransitivity; [|apply (H i); lia]. apply qsumn_ext. intros; ring.
Qed.
