From Verif Require Import BaseProofs MatModel MatProofs FitModel FitProofs FitCovProofs QuadricModel QuadricSpec.
From Coq Require Import Lia.
Local Open Scope Qc_scope.

(* ---- forms ---- *)
Lemma qsum_cons x l : qsum (x :: l) = x + qsum l. Proof. reflexivity. Qed.
Lemma qsum_nil : qsum [] = 0. Proof. reflexivity. Qed.
Lemma qsum_app a b : qsum (a ++ b) = qsum a + qsum b.
Proof. induction a as [|x a IH]; cbn [app]; [rewrite qsum_nil; ring|]. rewrite !qsum_cons, IH. ring. Qed.
Lemma form_ext n A B v : (forall i j, (i < n)%nat -> (j < n)%nat -> A i j = B i j) -> form n A v = form n B v.
Proof. intros H. apply qsumn_ext. intros i I. apply qsumn_ext. intros j J. now rewrite H. Qed.
Lemma form_add n A B v : form n (fun i j => A i j + B i j) v = form n A v + form n B v.
Proof.
  unfold form. rewrite <- qsumn_add. apply qsumn_ext. intros i _. rewrite <- qsumn_add. apply qsumn_ext. intros j _. ring.
Qed.
Lemma form_single n i j w v : (i < n)%nat -> (j < n)%nat -> form n (fun a b => if ((a =? i) && (b =? j))%nat then w else 0) v = v i * v j * w.
Proof.
  intros I J. unfold form. rewrite (qsumn_pick n i); [|exact I|].
  - rewrite (qsumn_pick n j); [|exact J|]; [rewrite !Nat.eqb_refl; cbn [andb]; ring|]. intros b _ B. rewrite Nat.eqb_refl. apply Nat.eqb_neq in B. rewrite B. cbn [andb]. ring.
  - intros a _ K. apply qsumn_zero. intros b _. apply Nat.eqb_neq in K. rewrite K. cbn [andb]. ring.
Qed.
Lemma form_set n A i j w v : (i < n)%nat -> (j < n)%nat -> form n (set A i j w) v = form n A v + v i * v j * (w - A i j).
Proof.
  intros I J. rewrite <- form_single with (n := n) by assumption. rewrite <- form_add. apply form_ext. intros a b _ _. unfold set. destruct (Nat.eqb_spec a i) as [->|]; cbn [andb]; [|ring]. destruct (Nat.eqb_spec b j) as [->|]; ring.
Qed.
Definition key (e : nat * nat * Qc) : nat * nat := fst e.
Definition terms (v : nat -> Qc) (l : list (nat * nat * Qc)) : Qc := qsum (map (fun e => v (fst (fst e)) * v (snd (fst e)) * snd e) l).
Lemma form_assign n v l : forall A, NoDup (map key l) -> (forall e, In e l -> (fst (key e) < n)%nat /\ (snd (key e) < n)%nat /\ A (fst (key e)) (snd (key e)) = 0) ->
  form n (assign A l) v = form n A v + terms v l.
Proof.
  induction l as [|[[i j] w] l IH]; intros A N H; [unfold terms, assign; cbn [fold_left map]; rewrite qsum_nil; ring|].
  inversion N as [|? ? N1 N2]; subst. unfold assign in *. cbn [fold_left]. rewrite IH; [|exact N2|].
  - destruct (H (i, j, w) (or_introl eq_refl)) as (I & J & Z). cbn in I, J, Z. rewrite form_set by assumption. rewrite Z. unfold terms. cbn [map]. rewrite qsum_cons. cbn [fst snd]. ring.
  - intros e E. destruct (H e (or_intror E)) as (I & J & Z). split; [exact I|]. split; [exact J|]. unfold set. destruct (Nat.eqb_spec (fst (key e)) i) as [A1|]; cbn [andb]; [|exact Z]. destruct (Nat.eqb_spec (snd (key e)) j) as [A2|]; [|exact Z].
    exfalso. apply N1. apply in_map_iff. exists e. split; [|exact E]. unfold key in *. destruct e as [[a b] c]. cbn in *. congruence.
Qed.
Lemma form_zeros n v : form n zeros v = 0.
Proof. apply qsumn_zero. intros i _. apply qsumn_zero. intros j _. unfold zeros. ring. Qed.
Lemma assign_out l : forall A i j, ~ In (i, j) (map key l) -> assign A l i j = A i j.
Proof.
  induction l as [|[[a b] w] l IH]; intros A i j H; [reflexivity|]. unfold assign in *. cbn [fold_left]. rewrite IH by (intros K; apply H; now right). unfold set. destruct (Nat.eqb_spec i a) as [->|]; [|reflexivity]. destruct (Nat.eqb_spec j b) as [->|]; [|reflexivity]. exfalso. apply H. now left.
Qed.
Lemma assign_in l : forall A i j w, NoDup (map key l) -> In (i, j, w) l -> assign A l i j = w.
Proof.
  induction l as [|[[a b] u] l IH]; intros A i j w N H; [destruct H|]. inversion N as [|? ? N1 N2]; subst. destruct H as [[= -> -> ->]|H].
  - unfold assign. cbn [fold_left]. fold (assign (set A i j w) l). rewrite assign_out by exact N1. unfold set. now rewrite !Nat.eqb_refl.
  - unfold assign. cbn [fold_left]. apply IH; assumption.
Qed.
Lemma assign_sym l : NoDup (map key l) -> (forall i j w, In (i, j, w) l -> In (j, i, w) l) -> forall i j, assign zeros l i j = assign zeros l j i.
Proof.
  intros N H i j. assert (D : forall x y : nat * nat, {x = y} + {x <> y}) by (decide equality; apply Nat.eq_dec). destruct (in_dec D (i, j) (map key l)) as [I|I].
  - apply in_map_iff in I as ([[a b] w] & E & I). unfold key in E. cbn in E. assert (a = i) by congruence. assert (b = j) by congruence. subst a b. rewrite (assign_in _ _ _ _ _ N I). symmetry. apply assign_in; [exact N|]. now apply H.
  - rewrite assign_out by exact I. rewrite assign_out; [reflexivity|]. intros K. apply I. apply in_map_iff in K as ([[a b] w] & E & K). unfold key in E. cbn in E. assert (a = j) by congruence. assert (b = i) by congruence. subst a b. apply H in K. apply in_map_iff. now exists (i, j, w).
Qed.
Lemma nodup_app {T} (a b : list T) : NoDup a -> NoDup b -> (forall x, In x a -> ~ In x b) -> NoDup (a ++ b).
Proof.
  intros A B H. induction A as [|x a N A IH]; [exact B|]. cbn. constructor.
  - rewrite in_app_iff. intros [K|K]; [contradiction|]. now apply (H x (or_introl eq_refl)).
  - apply IH. intros y Y. apply H. now right.
Qed.
Lemma map_combine_fst {S T} (a : list S) (b : list T) : length a = length b -> map fst (combine a b) = a.
Proof. revert b. induction a as [|x a IH]; intros [|y b] L; try discriminate; [reflexivity|]. cbn. rewrite IH; [reflexivity|]. now injection L. Qed.
(* the positions that are set: last row, last column, part of the diagonal and the corner *)
Section Positions.
Variables (n : nat) (ind : list nat) (q d : list Qc) (c : Qc).
Hypothesis ND : NoDup ind.
Hypothesis LT : forall k, In k ind -> (k < n)%nat.
Hypothesis LQ : length ind = length q.
Let cells := map (row n) (combine ind q) ++ map (column n) (combine ind q) ++ map diagonal (combine ind d) ++ [(n, n, c)].
Lemma cells_keys : (length ind = length d \/ d = []) -> NoDup (map key cells).
Proof.
  intros LD. unfold cells. rewrite !map_app, !map_map. cbn [map].
  assert (K1 : map (fun x => key (row n x)) (combine ind q) = map (fun k => (n, k)) ind) by (rewrite <- (map_combine_fst ind q LQ) at 2; rewrite map_map; reflexivity).
  assert (K2 : map (fun x => key (column n x)) (combine ind q) = map (fun k => (k, n)) ind) by (rewrite <- (map_combine_fst ind q LQ) at 2; rewrite map_map; reflexivity).
  assert (K3 : exists ind', NoDup ind' /\ (forall k, In k ind' -> In k ind) /\ map (fun x => key (diagonal x)) (combine ind d) = map (fun k => (k, k)) ind').
  { destruct LD as [LD| ->]; [exists ind; split; [exact ND|]; split; [auto|]; rewrite <- (map_combine_fst ind d LD) at 2; rewrite map_map; reflexivity|]. exists []. split; [constructor|]. split; [intros ? []|]. destruct ind; reflexivity. }
  destruct K3 as (ind' & ND' & IN' & K3). rewrite K1, K2, K3. change (key (n, n, c)) with (n, n).
  assert (M : forall f : nat -> nat * nat, (forall a b, f a = f b -> a = b) -> forall l, NoDup l -> NoDup (map f l)).
  { intros f F l N. induction N as [|x l X N IH]; cbn; constructor; [|exact IH]. intros K. apply in_map_iff in K as (y & E & Y). apply F in E. now subst y. }
  apply nodup_app; [apply M; [congruence|exact ND]| |].
  2: { intros x X K. apply in_map_iff in X as (k & <- & X). apply LT in X. rewrite !in_app_iff in K. destruct K as [K|[K|K]].
    - apply in_map_iff in K as (k' & E & K). apply LT in K. assert (n = k') by congruence. lia.
    - apply in_map_iff in K as (k' & E & K). apply IN', LT in K. assert (n = k') by congruence. lia.
    - destruct K as [K|[]]. assert (n = k) by congruence. lia. }
  apply nodup_app; [apply M; [congruence|exact ND]| |].
  2: { intros x X K. apply in_map_iff in X as (k & <- & X). apply LT in X. rewrite !in_app_iff in K. destruct K as [K|K].
    - apply in_map_iff in K as (k' & E & K). apply IN', LT in K. assert (n = k') by congruence. lia.
    - destruct K as [K|[]]. assert (n = k) by congruence. lia. }
  apply nodup_app; [apply M; [congruence|exact ND']| |].
  2: { intros x X K. apply in_map_iff in X as (k & <- & X). apply IN', LT in X. destruct K as [K|[]]. assert (n = k) by congruence. lia. }
  constructor; [intros []|constructor].
Qed.
Lemma cells_range e : In e cells -> (fst (key e) < S n)%nat /\ (snd (key e) < S n)%nat.
Proof.
  unfold cells. rewrite !in_app_iff. intros H. assert (G : forall (p : nat * Qc) l, In p (combine ind l) -> (fst p < n)%nat) by (intros [k w] l P; apply in_combine_l in P; now apply LT).
  destruct H as [H|[H|[H|[<-|[]]]]]; try (apply in_map_iff in H as (p & <- & H); apply G in H); unfold key, row, column, diagonal; cbn [fst snd]; lia.
Qed.
Lemma cells_sym i j w : In (i, j, w) cells -> In (j, i, w) cells.
Proof.
  unfold cells. rewrite !in_app_iff. intros [H|[H|[H|H]]].
  - right. left. apply in_map_iff in H as (p & E & H). apply in_map_iff. exists p. unfold row, column in *. split; [congruence|exact H].
  - left. apply in_map_iff in H as (p & E & H). apply in_map_iff. exists p. unfold row, column in *. split; [congruence|exact H].
  - right. right. left. apply in_map_iff in H as (p & E & H). apply in_map_iff. exists p. unfold diagonal in *. split; [congruence|exact H].
  - right. right. right. destruct H as [H|[]]. left. congruence.
Qed.
Fixpoint inner (a b : list Qc) : Qc := match a, b with x :: a', y :: b' => x * y + inner a' b' | _, _ => 0 end.
Lemma cells_form v : v n = 1 -> (length ind = length d \/ d = []) ->
  form (S n) (assign zeros cells) v = (1 + 1) * inner (map v ind) q + inner (map (fun y => y * y) (map v ind)) d + c.
Proof.
  intros V LD. rewrite form_assign; [|now apply cells_keys|intros e I; destruct (cells_range e I); split; [assumption|split; [assumption|reflexivity]]]. rewrite form_zeros. unfold terms, cells. rewrite !map_app, !qsum_app, !map_map. cbn [map fst snd].
  assert (T1 : forall q, qsum (map (fun x => v (fst (fst (row n x))) * v (snd (fst (row n x))) * snd (row n x)) (combine ind q)) = inner (map v ind) q).
  { clear - V. generalize ind; intros idx; induction idx as [|k idx IH]; intros q; [reflexivity|]. destruct q as [|x l]; [reflexivity|]. cbn [combine map inner]. rewrite qsum_cons, IH. unfold row. cbn [fst snd]. rewrite V. ring. }
  assert (T2 : forall q, qsum (map (fun x => v (fst (fst (column n x))) * v (snd (fst (column n x))) * snd (column n x)) (combine ind q)) = inner (map v ind) q).
  { clear - V. generalize ind; intros idx; induction idx as [|k idx IH]; intros q; [reflexivity|]. destruct q as [|x l]; [reflexivity|]. cbn [combine map inner]. rewrite qsum_cons, IH. unfold column. cbn [fst snd]. rewrite V. ring. }
  assert (T3 : forall q, qsum (map (fun x => v (fst (fst (diagonal x))) * v (snd (fst (diagonal x))) * snd (diagonal x)) (combine ind q)) = inner (map (fun y => y * y) (map v ind)) q).
  { clear. generalize ind; intros idx; induction idx as [|k idx IH]; intros q; [reflexivity|]. destruct q as [|x l]; [reflexivity|]. cbn [combine map inner]. rewrite qsum_cons, IH. unfold diagonal. cbn [fst snd]. ring. }
  rewrite T1, T2, T3, qsum_cons, qsum_nil. rewrite !V, map_map. ring.
Qed.
End Positions.

Lemma homogeneous_end y : homogeneous y (length y) = 1.
Proof. unfold homogeneous. rewrite app_nth2 by lia. now rewrite Nat.sub_diag. Qed.
Lemma homogeneous_seq y : map (homogeneous y) (seq 0 (length y)) = y.
Proof.
  apply nth_ext with (d := 0) (d' := 0); [now rewrite map_length, seq_length|]. intros k K. rewrite map_length, seq_length in K. rewrite (nth_indep _ 0 (homogeneous y 0)) by (now rewrite map_length, seq_length). rewrite map_nth, seq_nth by exact K. unfold homogeneous. cbn [plus]. now rewrite app_nth1.
Qed.
Lemma seq_range n k : In k (seq 0 n) -> (k < n)%nat. Proof. rewrite in_seq. lia. Qed.
Lemma qsum_times x u : qsum (map (fun p => fst p * snd p) (combine x u)) = inner x u.
Proof. revert u. induction x as [|a x IH]; intros [|b u]; try reflexivity. cbn [combine map inner]. rewrite qsum_cons, IH. reflexivity. Qed.

Theorem plane_spec : forall x0 u y, length u = length x0 -> length y = length x0 -> exists A, plane x0 u = Ok A /\ square_of (S (length x0)) A /\ symmetric (S (length x0)) A /\ at_point A y = distance x0 u y.
Proof.
  intros x0 u y LU LY. unfold plane. rewrite times_ok by congruence. cbn [bind]. eexists. split; [reflexivity|]. split; [reflexivity|].
  set (n := length x0). set (u2 := map _ u). assert (L2 : length (seq 0 n) = length u2) by (unfold u2; now rewrite seq_length, map_length).
  set (c := - qsum _). change (map (row n) (combine (seq 0 n) u2) ++ map (column n) (combine (seq 0 n) u2) ++ [(n, n, c)]) with
    (map (row n) (combine (seq 0 n) u2) ++ map (column n) (combine (seq 0 n) u2) ++ map diagonal [] ++ [(n, n, c)]). assert (D0 : @nil (nat * Qc) = combine (seq 0 n) (@nil Qc)) by (destruct (seq 0 n); reflexivity). rewrite D0.
  split.
  - intros i j _ _. apply assign_sym; [apply cells_keys; auto using seq_NoDup, seq_range|]. intros a b w. now apply cells_sym.
  - unfold at_point. rewrite LY. fold n. change (entries (mat (S n) (S n) ?f)) with f. rewrite (cells_form n (seq 0 n) u2 []); auto using seq_NoDup, seq_range.
    2: { unfold n. rewrite <- LY. apply homogeneous_end. }
    unfold n at 1 2. rewrite <- LY, homogeneous_seq. unfold c, u2. rewrite qsum_times. clear - LU LY. assert (I0 : forall l, inner l [] = 0) by (intros [|]; reflexivity). rewrite I0.
    revert u y LU LY. induction x0 as [|x x0 IH]; intros [|v u] [|z y] LU LY; try discriminate; [cbn; ring|]. cbn [map inner distance length] in *. rewrite <- IH by congruence. assert (H : (1 + 1) * (v / Q2Qc (2#1)) = v). { assert (Q2Qc (2#1) <> 0) by discriminate. change (1 + 1) with (Q2Qc (2#1)). field. assumption. }
    generalize dependent (v / Q2Qc (2#1)). intros w <-. ring.
Qed.
Lemma spread_inner x0 : forall a y, length a = length x0 -> length y = length x0 -> ~ In 0 a ->
  (1 + 1) * inner y (map Qcopp (map (fun p => fst p * snd p) (combine x0 (map (fun s => / s) (map (fun p => fst p * snd p) (combine a a))))))
  + inner (map (fun y => y * y) y) (map (fun s => / s) (map (fun p => fst p * snd p) (combine a a)))
  + inner (map (fun p => fst p * snd p) (combine x0 (map (fun s => / s) (map (fun p => fst p * snd p) (combine a a))))) x0 = spread x0 a y.
Proof.
  induction x0 as [|x x0 IH]; intros [|s a] [|z y] LA LY N; try discriminate; [cbn; ring|]. cbn [combine map inner spread fst snd length] in *. rewrite <- IH; [|congruence|congruence|intros K; apply N; now right]. assert (S0 : s <> 0) by (intros E; apply N; left; exact E). field. exact S0.
Qed.
Lemma no_zero a : ~ In 0 a -> existsb (fun s => Qc_eqb s 0) (map (fun p => fst p * snd p) (combine a a)) = false.
Proof.
  intros N. destruct (existsb _ _) eqn:E; [|reflexivity]. exfalso. apply existsb_exists in E as (s & I & Z). apply Qc_eqb_spec in Z. subst s. apply in_map_iff in I as ([x y] & Z & I). cbn in Z.
  assert (x = y) by (clear - I; induction a as [|b a IH]; [destruct I|destruct I as [E|I]; [congruence|auto]]). subst y. apply in_combine_l in I. destruct (Qcmult_integral _ _ Z); subst; contradiction.
Qed.
Lemma a_zero a : In 0 a -> existsb (fun s => Qc_eqb s 0) (map (fun p => fst p * snd p) (combine a a)) = true.
Proof.
  intros I. apply existsb_exists. exists 0. split; [|now apply Qc_eqb_spec]. apply in_map_iff. exists (0, 0). split; [cbn; ring|]. clear - I. induction a as [|b a IH]; [destruct I|]. destruct I as [->|I]; [now left|right; auto].
Qed.
Definition axes (x0 a : list Qc) : list Qc := match a with [s] => map (fun _ => s) x0 | _ => a end.
Lemma quadsum_spec x0 a n ind y : length (axes x0 a) = length x0 -> ~ In 0 (axes x0 a) -> length ind = length x0 -> NoDup ind -> (forall k, In k ind -> (k < n)%nat) -> length y = n ->
  exists A, quadsum1 x0 a n ind = Ok A /\ square_of (S n) A /\ symmetric (S n) A /\ at_point A y = spread x0 (axes x0 a) (map (homogeneous y) ind) - 1.
Proof.
  intros LA N0 LI ND LT LY. unfold quadsum1. fold (axes x0 a). set (b := axes x0 a) in *. clearbody b. rewrite times_ok by reflexivity. cbn [bind]. set (a2 := map (fun p => fst p * snd p) (combine b b)).
  assert (L2 : length a2 = length x0) by (unfold a2; rewrite map_length, combine_length; lia). rewrite times_ok by congruence. cbn [bind]. unfold a2 at 1. rewrite no_zero by exact N0.
  rewrite times_ok by (rewrite map_length; congruence). cbn [bind]. set (p := map (fun p => fst p * snd p) (combine x0 (map (fun s => / s) a2))). assert (LP : length p = length x0) by (unfold p; rewrite map_length, combine_length, map_length; lia).
  rewrite times_ok by exact LP. cbn [bind]. rewrite qsum_times. eexists. split; [reflexivity|]. split; [reflexivity|].
  assert (LQ : length ind = length (map Qcopp p)) by (rewrite map_length; congruence). assert (LD : length ind = length (map (fun s => / s) a2)) by (rewrite map_length; congruence).
  split.
  - intros i j _ _. apply assign_sym; [apply cells_keys; auto|]. intros u v w. now apply cells_sym.
  - unfold at_point. rewrite LY. change (entries (mat (S n) (S n) ?f)) with f. rewrite cells_form; auto. 2: { rewrite <- LY. apply homogeneous_end. }
    rewrite <- spread_inner; [|congruence|rewrite map_length; congruence|exact N0]. fold a2. fold p. ring.
Qed.
Theorem ellipsoid_spec : forall x0 a y, length a = length x0 -> ~ In 0 a -> length y = length x0 ->
  exists A, ellipsoid x0 a = Ok A /\ square_of (S (length x0)) A /\ symmetric (S (length x0)) A /\ at_point A y = spread x0 a y - 1.
Proof.
  intros x0 a y LA N0 LY. assert (B : axes x0 a = a) by (destruct a as [|s [|]]; try reflexivity; destruct x0 as [|? [|]]; try discriminate; reflexivity).
  destruct (quadsum_spec x0 a (length x0) (seq 0 (length x0)) y) as (A & E & S1 & S2 & V); rewrite ?B; auto using seq_length, seq_NoDup, seq_range. exists A. split; [exact E|]. split; [exact S1|]. split; [exact S2|]. rewrite V, B, <- LY, homogeneous_seq. reflexivity.
Qed.
Theorem sphere_spec : forall x0 s y, s <> 0 -> length y = length x0 -> exists A, ellipsoid x0 [s] = Ok A /\ square_of (S (length x0)) A /\ at_point A y = spread x0 (repeat s (length x0)) y - 1.
Proof.
  intros x0 s y S0 LY. assert (R : axes x0 [s] = repeat s (length x0)) by (cbn [axes]; clear; induction x0 as [|x x0 IH]; cbn; congruence).
  destruct (quadsum_spec x0 [s] (length x0) (seq 0 (length x0)) y) as (A & E & S1 & S2 & V); rewrite ?R; auto using seq_length, seq_NoDup, seq_range, repeat_length.
  - intros K. apply repeat_spec in K. congruence.
  - exists A. split; [exact E|]. split; [exact S1|]. rewrite V, R, <- LY, homogeneous_seq. reflexivity.
Qed.
Lemma pop_ok {T} (l : list T) axis k : (k < length l)%nat -> axis = Z.of_nat k \/ axis = (Z.of_nat k - Z.of_nat (length l))%Z -> pop l axis = Ok (firstn k l ++ skipn (S k) l).
Proof.
  intros K H. unfold pop. assert (E : (if axis <? 0 then axis + Z.of_nat (length l) else axis)%Z = Z.of_nat k) by (destruct H as [-> | ->]; [destruct (Z.ltb_spec (Z.of_nat k) 0); lia|destruct (Z.ltb_spec (Z.of_nat k - Z.of_nat (length l)) 0); lia]).
  rewrite E. destruct (Z.ltb_spec (Z.of_nat k) 0); [lia|]. destruct (Z.leb_spec (Z.of_nat (length l)) (Z.of_nat k)); [lia|]. cbn [orb]. now rewrite Nat2Z.id.
Qed.
Lemma pop_err {T} (l : list T) axis : (axis < - Z.of_nat (length l) \/ Z.of_nat (length l) <= axis)%Z -> pop l axis = Err IndexError.
Proof. intros H. unfold pop. destruct (Z.ltb_spec axis 0); destruct (Z.ltb_spec (axis + Z.of_nat (length l)) 0), (Z.leb_spec (Z.of_nat (length l)) (axis + Z.of_nat (length l))), (Z.ltb_spec axis 0), (Z.leb_spec (Z.of_nat (length l)) axis); try lia; reflexivity. Qed.
Theorem cylinder_spec : forall x0 a y axis k, length a = length x0 -> ~ In 0 a -> length y = S (length x0) -> (k <= length x0)%nat -> axis = Z.of_nat k \/ axis = (Z.of_nat k - Z.of_nat (length y))%Z ->
  exists A, cylinder x0 a axis = Ok A /\ square_of (S (length y)) A /\ symmetric (S (length y)) A /\ at_point A y = spread x0 a (firstn k y ++ skipn (S k) y) - 1.
Proof.
  intros x0 a y axis k LA N0 LY K H. assert (B : axes x0 a = a) by (destruct a as [|s [|]]; try reflexivity; destruct x0 as [|? [|]]; try discriminate; reflexivity).
  unfold cylinder. rewrite <- LY. rewrite (pop_ok _ axis k) by (rewrite seq_length; first [exact H|lia]). cbn [bind].
  assert (SP : seq 0 (length y) = seq 0 k ++ k :: seq (S k) (length y - S k)). { replace (length y) with (k + S (length y - S k))%nat at 1 by lia. rewrite seq_app. reflexivity. }
  set (ind := firstn k (seq 0 (length y)) ++ skipn (S k) (seq 0 (length y))).
  assert (LK : length (seq 0 k) = k) by apply seq_length.
  assert (IN : ind = seq 0 k ++ seq (S k) (length y - S k)).
  { unfold ind. rewrite SP. rewrite firstn_app, LK, Nat.sub_diag, firstn_all2 by lia. cbn [firstn]. rewrite app_nil_r. f_equal. rewrite skipn_app, LK. rewrite skipn_all2 by lia. cbn [app]. replace (S k - k)%nat with 1%nat by lia. reflexivity. }
  assert (NI : NoDup ind). { rewrite IN. pose proof (seq_NoDup (length y) 0) as N. rewrite SP in N. now apply NoDup_remove_1 in N. }
  assert (RI : forall j, In j ind -> (j < length y)%nat). { intros j J. rewrite IN in J. apply in_app_iff in J as [J|J]; apply in_seq in J; lia. }
  assert (LI : length ind = length x0) by (rewrite IN, app_length, !seq_length; lia).
  destruct (quadsum_spec x0 a (length y) ind y) as (A & E & S1 & S2 & V); rewrite ?B; auto. exists A. split; [exact E|]. split; [exact S1|]. split; [exact S2|]. rewrite V, B. do 2 f_equal.
  unfold ind. rewrite map_app, <- firstn_map, <- skipn_map, homogeneous_seq. reflexivity.
Qed.
Theorem quadric_errors : (forall x0 u, length u <> length x0 -> plane x0 u = Err ValueError)
  /\ (forall x0 a, length a <> length x0 -> length a <> 1%nat -> ellipsoid x0 a = Err ValueError)
  /\ (forall x0 a, length a = length x0 -> In 0 a -> ellipsoid x0 a = Err ZeroDivisionError)
  /\ (forall x0 a axis, (axis < - Z.of_nat (S (length x0)) \/ Z.of_nat (S (length x0)) <= axis)%Z -> cylinder x0 a axis = Err IndexError).
Proof.
  split; [|split; [|split]].
  - intros x0 u L. unfold plane. now rewrite times_err by congruence.
  - intros x0 a L L1. unfold ellipsoid, quadsum1. fold (axes x0 a). assert (B : axes x0 a = a) by (destruct a as [|s [|]]; try reflexivity; now destruct L1). rewrite B, times_ok by reflexivity. cbn [bind]. rewrite times_err; [reflexivity|]. rewrite map_length, combine_length. lia.
  - intros x0 a L I. unfold ellipsoid, quadsum1. fold (axes x0 a). assert (B : axes x0 a = a) by (destruct a as [|s [|]]; try reflexivity; destruct x0 as [|? [|]]; try discriminate; reflexivity). rewrite B, times_ok by reflexivity. cbn [bind]. rewrite times_ok by (rewrite map_length, combine_length; lia). cbn [bind]. now rewrite a_zero.
  - intros x0 a axis H. unfold cylinder. rewrite pop_err; [reflexivity|]. now rewrite seq_length.
Qed.

(* ---- change of frame ---- *)
Definition mv (n : nat) (M : nat -> nat -> Qc) (v : nat -> Qc) : nat -> Qc := fun i => qsumn n (fun j => M i j * v j).
Definition dotv (n : nat) (u v : nat -> Qc) : Qc := qsumn n (fun i => u i * v i).
Lemma dotv_ext n u v u' v' : (forall i, (i < n)%nat -> u i = u' i) -> (forall i, (i < n)%nat -> v i = v' i) -> dotv n u v = dotv n u' v'.
Proof. intros H K. apply qsumn_ext. intros i I. now rewrite H, K. Qed.
Lemma form_dotv n M v : form n M v = dotv n v (mv n M v).
Proof. unfold form, dotv, mv. apply qsumn_ext. intros i _. rewrite <- qsumn_mul. apply qsumn_ext. intros; ring. Qed.
Lemma mv_mm n k P Q v i : mv n (mm k P Q) v i = mv k P (mv n Q v) i.
Proof.
  unfold mv, mm. rewrite (qsumn_ext n _ (fun j => qsumn k (fun t => P i t * Q t j * v j))) by (intros; symmetry; apply qsumn_mul_r). rewrite qsumn_swap. apply qsumn_ext. intros t _. rewrite <- qsumn_mul. apply qsumn_ext. intros; ring.
Qed.
Lemma dotv_tr m n M u v : dotv n v (mv m (tr M) u) = dotv m (mv n M v) u.
Proof.
  unfold dotv, mv, tr. rewrite (qsumn_ext n _ (fun i => qsumn m (fun j => v i * (M j i * u j)))) by (intros; symmetry; apply qsumn_mul). rewrite qsumn_swap. apply qsumn_ext. intros j _. rewrite <- qsumn_mul_r. apply qsumn_ext. intros; ring.
Qed.
Lemma form_gram m n A C v : form n (mm m (tr C) (mm m A C)) v = form m A (mv n C v).
Proof.
  rewrite form_dotv. rewrite (dotv_ext n v _ v (mv m (tr C) (mv m A (mv n C v)))); [|reflexivity|].
  - rewrite dotv_tr, form_dotv. reflexivity.
  - intros i _. rewrite mv_mm. apply qsumn_ext. intros j _. now rewrite mv_mm.
Qed.
Lemma frame_eq A C m n : shp A = [m; m] -> shp C = [m; n] -> exists B, change_of_frame A C = Ok B /\ shp B = [n; n] /\ forall i j, entries B i j = mm m (tr (entries C)) (mm m (entries A) (entries C)) i j.
Proof.
  intros HA HC. unfold change_of_frame. rewrite (dot_eq A C m m n) by assumption. cbn [bind]. assert (R : rows C = m) by (unfold rows; now rewrite HC). assert (K : cols C = n) by (unfold cols; now rewrite HC).
  rewrite (dot_eq (transpose C) (mat m n (mm m (entries A) (entries C))) n m n) by (unfold transpose; rewrite ?R, ?K; reflexivity). eexists. split; [reflexivity|]. split; [reflexivity|]. intros i j. reflexivity.
Qed.
Theorem frame_spec : forall A C m n, shp A = [m; m] -> shp C = [m; n] -> exists B, change_of_frame A C = Ok B /\ square_of n B
  /\ (forall v, form n (entries B) v = form m (entries A) (applied n C v)) /\ (symmetric m A -> symmetric n B).
Proof.
  intros A C m n HA HC. destruct (frame_eq A C m n HA HC) as (B & E & S & V). exists B. split; [exact E|]. split; [exact S|]. split.
  - intros v. rewrite (form_ext n _ _ v (fun i j _ _ => V i j)). apply form_gram.
  - intros SA i j _ _. rewrite !V. unfold mm, tr. rewrite (qsumn_ext m _ (fun k => qsumn m (fun l => entries C k i * (entries A k l * entries C l j)))) by (intros; symmetry; apply qsumn_mul).
    rewrite qsumn_swap. apply qsumn_ext. intros l L. rewrite <- qsumn_mul. apply qsumn_ext. intros k K. rewrite (SA k l) by assumption. ring.
Qed.
Theorem frame_compose : forall A C D m n k, shp A = [m; m] -> shp C = [m; n] -> shp D = [n; k] -> exists B CD X Y, change_of_frame A C = Ok B /\ dot C D = Ok CD /\ change_of_frame B D = Ok X /\ change_of_frame A CD = Ok Y
  /\ shp X = shp Y /\ forall i j, entries X i j = entries Y i j.
Proof.
  intros A C D m n k HA HC HD. destruct (frame_eq A C m n HA HC) as (B & EB & SB & VB). pose proof (dot_eq C D m n k HC HD) as ECD. destruct (frame_eq B D n k SB HD) as (X & EX & SX & VX). destruct (frame_eq A (mat m k (mm n (entries C) (entries D))) m k HA eq_refl) as (Y & EY & SY & VY).
  exists B, (mat m k (mm n (entries C) (entries D))), X, Y. split; [exact EB|]. split; [exact ECD|]. split; [exact EX|]. split; [exact EY|]. split; [congruence|]. intros i j. rewrite VX, VY. change (entries (mat m k ?f)) with f.
  set (c := entries C). set (a := entries A). set (d := entries D).
  assert (H1 : mm n (tr d) (mm n (entries B) d) i j = mm n (tr d) (mm n (mm m (tr c) (mm m a c)) d) i j). { apply mm_ext; [reflexivity|]. intros t _. apply mm_ext; [|reflexivity]. intros s _. apply VB. }
  rewrite H1. clear H1.
  assert (H2 : mm n (tr d) (mm n (mm m (tr c) (mm m a c)) d) i j = mm n (tr d) (mm m (tr c) (mm m a (mm n c d))) i j). { apply mm_ext; [reflexivity|]. intros t _. rewrite mm_assoc. apply mm_ext; [reflexivity|]. intros s _. now rewrite mm_assoc. }
  rewrite H2. rewrite <- mm_assoc. apply mm_ext; [|reflexivity]. intros t _. now rewrite mm_tr.
Qed.
Theorem cylinder_point : forall x0 a axis A, cylinder x0 a axis = Ok A -> square_of (S (S (length x0))) A.
Proof.
  intros x0 a axis A H. unfold cylinder in H. destruct (pop _ axis) as [ind|]; cbn [bind] in H; [|discriminate]. unfold quadsum1 in H. destruct (times _ _) as [a2|] in H; cbn [bind] in H; [|discriminate]. destruct (times x0 a2) in H; cbn [bind] in H; [|discriminate]. destruct (existsb _ _) in H; [discriminate|]. destruct (times x0 _) as [p|] in H; cbn [bind] in H; [|discriminate]. destruct (times p x0) in H; cbn [bind] in H; [|discriminate]. assert (E : A = mat (S (S (length x0))) (S (S (length x0))) (entries A)) by (injection H as <-; reflexivity). rewrite E. reflexivity.
Qed.
