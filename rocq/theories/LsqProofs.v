From Verif Require Import BaseProofs MatModel MatProofs FitModel FitProofs FitCovProofs QuadricModel QuadricSpec QuadricProofs.
From Coq Require Import Lia.
Local Open Scope Qc_scope.

Lemma shape_rc A m n : shp A = [m; n] -> rows A = m /\ cols A = n. Proof. intros H. unfold rows, cols. rewrite H. split; reflexivity. Qed.
Lemma two_neq : Q2Qc (2#1) <> 0. Proof. discriminate. Qed.
Lemma two : Q2Qc (2#1) = 1 + 1. Proof. apply Qc_is_canon. reflexivity. Qed.
Lemma norm2_dotv n f : norm2 n f = dotv n f f. Proof. reflexivity. Qed.
Lemma nth_map_seq (f : nat -> Qc) n i : (i < n)%nat -> nth i (map f (seq 0 n)) 0 = f i.
Proof. intros I. rewrite (nth_indep _ 0 (f 0%nat)) by (now rewrite map_length, seq_length). rewrite map_nth, seq_nth by exact I. reflexivity. Qed.
Lemma form_unit n s x : form n (fun i j => if (i =? j)%nat then s else 0) x = s * norm2 n x.
Proof.
  unfold form, norm2. rewrite <- qsumn_mul. apply qsumn_ext. intros i I. rewrite (qsumn_pick n i); [rewrite Nat.eqb_refl; ring|exact I|]. intros j _ J. destruct (Nat.eqb_spec i j); [congruence|ring].
Qed.
Lemma loss_expand m n (c : nat -> nat -> Qc) d x :
  norm2 m (fun i => mv n c x i - d i) = form n (mm m (tr c) c) x - (1 + 1) * qsumn n (fun j => qsumn m (fun i => d i * c i j) * x j) + norm2 m d.
Proof.
  assert (H1 : form n (mm m (tr c) c) x = norm2 m (mv n c x)). { rewrite form_dotv. rewrite (dotv_ext n x _ x (mv m (tr c) (mv n c x))); [apply dotv_tr|reflexivity|]. intros i _. now rewrite mv_mm. }
  assert (H2 : qsumn n (fun j => qsumn m (fun i => d i * c i j) * x j) = dotv m d (mv n c x)).
  { rewrite (qsumn_ext n _ (fun j => qsumn m (fun i => d i * c i j * x j))) by (intros; symmetry; apply qsumn_mul_r). rewrite qsumn_swap. apply qsumn_ext. intros i _. unfold mv. rewrite <- qsumn_mul. apply qsumn_ext. intros; ring. }
  rewrite H1, H2. unfold norm2, dotv. assert (N1 : forall k, k * qsumn m (fun i => d i * mv n c x i) = qsumn m (fun i => k * (d i * mv n c x i))) by (intros; symmetry; apply qsumn_mul).
  assert (N2 : forall a b : Qc, a - b = a + (- (1)) * b) by (intros; ring). rewrite N2, N1, <- qsumn_mul, <- !qsumn_add. apply qsumn_ext. intros; ring.
Qed.

(* stacking *)
Lemma entire_length l n : length l = n \/ length l = 1%nat -> length (entire (squeeze l) n) = n.
Proof. intros H. destruct l as [|a [|b l]]; cbn [squeeze entire]; [destruct H; [assumption|discriminate]|apply repeat_length|destruct H; [assumption|discriminate]]. Qed.
Lemma entire_nth l n i : (i < n)%nat -> nth i (entire (squeeze l) n) 0 = bound l i.
Proof. intros I. destruct l as [|a [|b l]]; cbn [squeeze entire bound]; try reflexivity. rewrite (nth_indep _ 0 a) by (now rewrite repeat_length). now apply nth_repeat. Qed.
Definition stack_dense (A : option (arr Qc)) (s : Qc) (n : nat) : arr Qc :=
  match A with
  | None => mat n n (fun i j => if (i =? j)%nat then s else 0)
  | Some A => mat (rows A + n) n (fun i j => if (i <? rows A)%nat then entries A i j else if (i - rows A =? j)%nat then s else 0)
  end.
Lemma stack_eq A s n : (forall B, A = Some B -> cols B = n) -> stack_eye false (option_map Dense A) s n = Ok (Dense (stack_dense A s n)).
Proof. intros H. destruct A as [A|]; [|reflexivity]. cbn [option_map stack_eye width]. rewrite (H A eq_refl), Nat.eqb_refl. reflexivity. Qed.
Lemma stack_shape A s n : shp (stack_dense A s n) = [(match A with Some A => rows A | None => 0 end + n)%nat; n].
Proof. destruct A; reflexivity. Qed.
Lemma stack_low A s n x i : (forall B, A = Some B -> cols B = n) -> (i < match A with Some A => rows A | None => 0 end)%nat -> apply (stack_dense A s n) x i = match A with Some A => apply A x i | None => 0 end.
Proof.
  intros H I. destruct A as [A|]; [|lia]. unfold apply, stack_dense. change (cols (mat (rows A + n) n ?f)) with n. rewrite (H A eq_refl). apply qsumn_ext. intros j _. change (entries (mat (rows A + n) n ?f)) with f. cbv beta. destruct (Nat.ltb_spec i (rows A)); [reflexivity|lia].
Qed.
Lemma stack_high A s n x i : (i < n)%nat -> apply (stack_dense A s n) x (match A with Some A => rows A | None => 0 end + i) = s * x i.
Proof.
  intros I. destruct A as [A|]; unfold apply, stack_dense.
  - change (cols (mat (rows A + n) n ?f)) with n. change (entries (mat (rows A + n) n ?f)) with f. cbv beta. rewrite (qsumn_pick n i); [|exact I|].
    + destruct (Nat.ltb_spec (rows A + i) (rows A)); [lia|]. replace (rows A + i - rows A)%nat with i by lia. now rewrite Nat.eqb_refl.
    + intros j _ J. destruct (Nat.ltb_spec (rows A + i) (rows A)); [lia|]. replace (rows A + i - rows A)%nat with i by lia. destruct (Nat.eqb_spec i j); [congruence|ring].
  - change (cols (mat n n ?f)) with n. change (entries (mat n n ?f)) with f. cbv beta. cbn [plus]. rewrite (qsumn_pick n i); [now rewrite Nat.eqb_refl|exact I|]. intros j _ J. destruct (Nat.eqb_spec i j); [congruence|ring].
Qed.
Lemma stack_at_most A b s l n x : matching n A b -> length l = n ->
  (at_most (stack_dense A s n) (match b with Some b => b | None => [] end ++ l) x <-> constraint at_most A b x /\ forall i, (i < n)%nat -> s * x i <= nth i l 0).
Proof.
  intros M L. assert (HC : forall B, A = Some B -> cols B = n) by (intros B ->; destruct b; [apply M|destruct M]).
  set (k := match A with Some A => rows A | None => 0%nat end). set (bb := match b with Some b => b | None => [] end). assert (LB : length bb = k) by (unfold bb, k; destruct A, b; try (destruct M; fail); [apply M|reflexivity]).
  assert (R : rows (stack_dense A s n) = (k + n)%nat) by (unfold rows; now rewrite stack_shape). split.
  - intros H. split.
    + destruct A as [A|]; destruct b as [b|]; try exact I. intros i I. cbn [k] in *. specialize (H i). rewrite R in H. rewrite stack_low in H by assumption. unfold bb in *. rewrite app_nth1 in H by lia. apply H. unfold k. lia.
    + intros i I. specialize (H (k + i)%nat). rewrite R in H. unfold k in H at 2. rewrite stack_high in H by exact I. rewrite app_nth2 in H by lia. rewrite LB in H. replace (k + i - k)%nat with i in H by lia. apply H. lia.
  - intros [H1 H2] i I. rewrite R in I. destruct (Nat.lt_ge_cases i k) as [K|K].
    + rewrite stack_low by assumption. rewrite app_nth1 by lia. unfold bb, k in *. destruct A as [A|]; [|lia]. destruct b as [b|]; [|destruct M]. now apply H1.
    + replace i with (k + (i - k))%nat by lia. unfold k at 1. rewrite stack_high by lia. rewrite app_nth2 by lia. rewrite LB. replace (k + (i - k) - k)%nat with (i - k)%nat by lia. apply H2. lia.
Qed.
Lemma stack_matching A b s l n : matching n A b -> length l = n -> matching n (Some (stack_dense A s n)) (Some (match b with Some b => b | None => [] end ++ l)).
Proof.
  intros M L. split; [unfold cols; now rewrite stack_shape|]. unfold rows. rewrite stack_shape. cbn [nth]. rewrite app_length, L. destruct A, b; try (destruct M; fail); [destruct M as [_ ->]|]; reflexivity.
Qed.
(* one bound *)
Definition bounded (s : Qc) (n : nat) (o : option (list Qc)) (x : nat -> Qc) : Prop := match o with None => True | Some l => forall i, (i < n)%nat -> s * x i <= s * bound l i end.
Definition side_of (b : option (list Qc)) : option side := option_map Values b.
Lemma bound_step A b s o n : matching n A b -> bounding n o -> exists A' b',
  match o with
  | None => Ok (option_map Dense A, side_of b)
  | Some l => let! A := stack_eye false (option_map Dense A) s n in let! b := concatenate (side_of b) (map (Qcmult s) (entire (squeeze l) n)) in Ok (Some A, b)
  end = Ok (option_map Dense A', side_of b') /\ matching n A' b' /\ forall x, constraint at_most A' b' x <-> constraint at_most A b x /\ bounded s n o x.
Proof.
  intros M B. destruct o as [l|].
  - assert (HC : forall B, A = Some B -> cols B = n) by (intros B' ->; destruct b; [apply M|destruct M]). assert (L : length (map (Qcmult s) (entire (squeeze l) n)) = n) by (rewrite map_length; now apply entire_length).
    exists (Some (stack_dense A s n)), (Some (match b with Some b => b | None => [] end ++ map (Qcmult s) (entire (squeeze l) n))). rewrite stack_eq by exact HC. cbn [bind]. split; [destruct b; reflexivity|]. split; [now apply stack_matching|].
    intros x. cbn [constraint]. rewrite stack_at_most by assumption. apply and_iff_compat_l. cbn [bounded]. split; intros H i I; specialize (H i I).
    + rewrite (nth_indep _ 0 (s * 0)) in H by (rewrite map_length, entire_length by exact B; exact I). rewrite map_nth, entire_nth in H by exact I. exact H.
    + rewrite (nth_indep _ 0 (s * 0)) by (rewrite map_length, entire_length by exact B; exact I). rewrite map_nth, entire_nth by exact I. exact H.
  - exists A, b. split; [reflexivity|]. split; [exact M|]. intros x. cbn [bounded]. tauto.
Qed.
Lemma bounded_lower n o x : bounded (- (1)) n o x <-> above n o x.
Proof. destruct o as [l|]; cbn; [|tauto]. split; intros H i I; specialize (H i I); generalize dependent (bound l i); intros; qclra. Qed.
Lemma bounded_upper n o x : bounded 1 n o x <-> under n o x.
Proof. destruct o as [l|]; cbn; [|tauto]. split; intros H i I; specialize (H i I); generalize dependent (bound l i); intros; qclra. Qed.
Lemma map_opp l : map Qcopp l = map (Qcmult (- (1))) l. Proof. apply map_ext. intros; ring. Qed.
Lemma map_one l : l = map (Qcmult 1) l. Proof. rewrite <- (map_id l) at 1. apply map_ext. intros; ring. Qed.
Lemma eqb_true a b : a = b -> (a =? b)%nat = true. Proof. intros ->. apply Nat.eqb_refl. Qed.

Theorem lsqlin_dense : forall C m n d reg A b Aeq beq lb ub, shp C = [m; n] -> length d = m -> 0 <= reg -> matching n A b -> (forall v, b <> Some [v]) -> matching n Aeq beq -> bounding n lb -> bounding n ub ->
  exists p, lsqlin (Dense C) d reg (option_map Dense A) b (option_map Dense Aeq) beq lb ub = Ok p
  /\ (forall x, loss C d reg x = Q2Qc (2#1) * qp_value p x + norm2 m (fun i => nth i d 0))
  /\ (forall x, qp_feasible p x <-> admissible n A b Aeq beq lb ub x).
Proof.
  intros C m n d reg A b Aeq beq lb ub HC LD R M NB ME BL BU. destruct (shape_rc C m n HC) as [RC CC]. unfold lsqlin.
  replace (is_sparse (option_map Dense A)) with false by (destruct A; reflexivity). cbn [to_cvxopt].
  assert (T : shp (transpose C) = [n; m]) by (unfold transpose; rewrite RC, CC; reflexivity). rewrite (dot_eq (transpose C) C n m n T HC). cbn [bind]. rewrite RC, CC. rewrite (eqb_true _ _ LD). cbn [negb].
  assert (SQ : option_map squeeze b = side_of b) by (destruct b as [[|v [|w b]]|]; try reflexivity; now destruct (NB v)). rewrite SQ.
  destruct (bound_step A b (- (1)) lb n M BL) as (A1 & b1 & E1 & M1 & F1).
  set (first := match lb with None => _ | Some _ => _ end). assert (EF : first = Ok (option_map Dense A1, side_of b1)) by (rewrite <- E1; unfold first; destruct lb; [now rewrite map_opp|reflexivity]). rewrite EF. cbn [bind].
  destruct (bound_step A1 b1 1 ub n M1 BU) as (A2 & b2 & E2 & M2 & F2).
  set (second := match ub with None => _ | Some _ => _ end). assert (ES : second = Ok (option_map Dense A2, side_of b2)) by (rewrite <- E2; unfold second; destruct ub as [l|]; [now rewrite <- map_one|reflexivity]). rewrite ES. cbn [bind].
  assert (EV : vector (side_of b2) = Ok b2) by (destruct b2; reflexivity). rewrite EV. cbn [bind].
  assert (OA : option_map to_cvxopt (option_map Dense A2) = A2) by (destruct A2; reflexivity). assert (OE : option_map to_cvxopt (option_map Dense Aeq) = Aeq) by (destruct Aeq; reflexivity). rewrite OA, OE.
  set (q := map _ (seq 0 n)). assert (LQ : length q = n) by (unfold q; now rewrite map_length, seq_length).
  set (Q := if Qc_ltb 0 reg then _ else _). assert (SQ' : shp Q = [n; n]) by (unfold Q; destruct (Qc_ltb 0 reg); reflexivity). destruct (shape_rc Q n n SQ') as [RQ CQ].
  assert (EQ : forall i j, entries Q i j = mm m (tr (entries C)) (entries C) i j + (if (i =? j)%nat then reg else 0)).
  { intros i j. unfold Q. destruct (Qc_ltb 0 reg) eqn:P; [reflexivity|]. assert (Z : reg = 0) by (qc_bool; apply Qcle_antisym; assumption). rewrite Z. change (entries (mat n n ?f) i j) with (f i j). change (entries (transpose C)) with (tr (entries C)). destruct (i =? j)%nat; ring. }
  unfold solvers_qp. rewrite LQ, RQ, CQ, Nat.eqb_refl. cbn [andb].
  assert (GG : cols (match A2 with Some G => G | None => norows n end) = n /\ length (match b2 with Some h => h | None => [] end) = rows (match A2 with Some G => G | None => norows n end)) by (destruct A2, b2; try (destruct M2; fail); [exact M2|split; reflexivity]).
  assert (AA : cols (match Aeq with Some G => G | None => norows n end) = n /\ length (match beq with Some h => h | None => [] end) = rows (match Aeq with Some G => G | None => norows n end)) by (destruct Aeq, beq; try (destruct ME; fail); [exact ME|split; reflexivity]).
  destruct GG as [G1 G2]. destruct AA as [H1 H2]. rewrite G1, H1, (eqb_true _ _ G2), (eqb_true _ _ H2), Nat.eqb_refl. cbn [andb]. eexists. split; [reflexivity|]. split.
  - intros x. unfold qp_value. cbn [qp_P qp_q]. rewrite LQ. unfold loss. rewrite RC, CC.
    assert (AP : norm2 m (fun i => apply C x i - nth i d 0) = norm2 m (fun i => mv n (entries C) x i - nth i d 0)) by (unfold apply, mv; now rewrite CC). rewrite AP.
    rewrite (loss_expand m n (entries C) (fun i => nth i d 0) x). rewrite (form_ext n _ _ x (fun i j _ _ => EQ i j)), form_add, form_unit.
    assert (QX : qsumn n (fun i => nth i q 0 * x i) = - qsumn n (fun j => qsumn m (fun i => nth i d 0 * entries C i j) * x j)).
    { assert (NG : forall f, - qsumn n f = qsumn n (fun i => (- (1)) * f i)) by (intros f; rewrite qsumn_mul; ring). rewrite NG. apply qsumn_ext. intros j J. unfold q. rewrite nth_map_seq by exact J. ring. }
    rewrite QX. generalize (form n (mm m (tr (entries C)) (entries C)) x) (norm2 n x) (norm2 m (fun i => nth i d 0)) (qsumn n (fun j => qsumn m (fun i => nth i d 0 * entries C i j) * x j)). intros u v w z. assert (T2 := two_neq). rewrite <- two. field. exact T2.
  - intros x. unfold qp_feasible, admissible. cbn [qp_G qp_h qp_A qp_b].
    assert (P1 : at_most (match A2 with Some G => G | None => norows n end) (match b2 with Some h => h | None => [] end) x <-> constraint at_most A2 b2 x).
    { destruct A2, b2; try (destruct M2; fail); [reflexivity|]. split; [exact (fun _ => I)|]. intros _ i I. change (i < 0)%nat in I. lia. }
    assert (P2 : equals (match Aeq with Some G => G | None => norows n end) (match beq with Some h => h | None => [] end) x <-> constraint equals Aeq beq x).
    { destruct Aeq, beq; try (destruct ME; fail); [reflexivity|]. split; [exact (fun _ => I)|]. intros _ i I. change (i < 0)%nat in I. lia. }
    rewrite P1, P2, F2, F1, bounded_lower, bounded_upper. tauto.
Qed.
Lemma least_iff (S T : (nat -> Qc) -> Prop) f g k x : (forall x, S x <-> T x) -> (forall x, g x = Q2Qc (2#1) * f x + k) -> least S f x <-> least T g x.
Proof.
  intros H E. assert (P : forall a b : Qc, a <= b <-> Q2Qc (2#1) * a + k <= Q2Qc (2#1) * b + k) by (intros; rewrite two; split; qclra). unfold least. rewrite H. apply and_iff_compat_l. split; intros K y Y.
  - rewrite !E. apply (proj1 (P (f x) (f y))). apply K. now apply H.
  - apply (proj2 (P (f x) (f y))). rewrite <- !E. apply K. now apply H.
Qed.
Theorem lsqlin_solution : forall C m n d reg A b Aeq beq lb ub, shp C = [m; n] -> length d = m -> 0 <= reg -> matching n A b -> (forall v, b <> Some [v]) -> matching n Aeq beq -> bounding n lb -> bounding n ub ->
  exists p, lsqlin (Dense C) d reg (option_map Dense A) b (option_map Dense Aeq) beq lb ub = Ok p
  /\ forall x, least (qp_feasible p) (qp_value p) x <-> least (admissible n A b Aeq beq lb ub) (loss C d reg) x.
Proof.
  intros C m n d reg A b Aeq beq lb ub HC LD R M NB ME BL BU. destruct (lsqlin_dense C m n d reg A b Aeq beq lb ub HC LD R M NB ME BL BU) as (p & E & V & F). exists p. split; [exact E|]. intros x. eapply least_iff; [exact F|exact V].
Qed.
Theorem nonneg_spec : forall C m n d, shp C = [m; n] -> length d = m -> exists p, lsqnonneg (Dense C) d = Ok p
  /\ forall x, least (qp_feasible p) (qp_value p) x <-> least (fun x => forall i, (i < n)%nat -> 0 <= x i) (loss C d 0) x.
Proof.
  intros C m n d HC LD. destruct (lsqlin_dense C m n d 0 None None None None (Some [0]) None HC LD (Qcle_refl 0) I ltac:(discriminate) I (or_intror eq_refl) I) as (p & E & V & F). exists p. split; [exact E|]. intros x. eapply least_iff; [|exact V]. intros y. rewrite F. unfold admissible, constraint, above, under, bound. tauto.
Qed.
Theorem norm_spec : forall C m n d, shp C = [m; n] -> length d = m -> exists p, lsqnorm (Dense C) d = Ok p
  /\ forall x, least (qp_feasible p) (qp_value p) x <-> least (fun x => (forall i, (i < n)%nat -> 0 <= x i /\ x i <= 1) /\ qsumn n x = 1) (loss C d 0) x.
Proof.
  intros C m n d HC LD. destruct (shape_rc C m n HC) as [RC CC]. unfold lsqnorm. cbn [width]. rewrite CC. destruct (lsqlin_dense C m n d 0 None None (Some (mat 1 n (fun _ _ => 1))) (Some [1]) (Some [0]) (Some [1]) HC LD (Qcle_refl 0) I ltac:(discriminate) (conj eq_refl eq_refl) (or_intror eq_refl) (or_intror eq_refl)) as (p & E & V & F).
  exists p. split; [exact E|]. intros x. eapply least_iff; [|exact V]. intros y. rewrite F. unfold admissible, constraint, above, under, bound, equals.
  assert (S1 : forall i, (i < 1)%nat -> apply (mat 1 n (fun _ _ => 1)) y i = qsumn n y) by (intros i _; unfold apply; change (cols (mat 1 n ?f)) with n; apply qsumn_ext; intros j _; change (entries (mat 1 n ?f)) with f; cbv beta; ring).
  change (rows (mat 1 n (fun _ _ => 1))) with 1%nat. split.
  - intros (_ & H & L & U). split; [intros i I; split; [now apply L|now apply U]|]. rewrite <- (S1 0%nat) by lia. rewrite H by lia. reflexivity.
  - intros [B S]. split; [exact I|]. split; [intros i I; rewrite S1 by exact I; rewrite S; assert (i = 0%nat) by lia; now subst i|]. split; intros i I; apply B; exact I.
Qed.
(* ---- what does not hold ---- *)
Theorem single_inequality : forall C m n d reg A v Aeq beq lb ub, shp C = [m; n] -> length d = m -> shp A = [1%nat; n] ->
  exists e, lsqlin (Dense C) d reg (Some (Dense A)) (Some [v]) Aeq beq lb ub = Err e /\ e = match lb, ub with None, None => TypeError | _, _ => ValueError end.
Proof.
  intros C m n d reg A v Aeq beq lb ub HC LD HA. destruct (shape_rc C m n HC) as [RC CC]. destruct (shape_rc A 1 n HA) as [RA CA]. unfold lsqlin. cbn [is_sparse to_cvxopt option_map squeeze].
  assert (T : shp (transpose C) = [n; m]) by (unfold transpose; rewrite RC, CC; reflexivity). rewrite (dot_eq (transpose C) C n m n T HC). cbn [bind]. rewrite RC, CC. rewrite (eqb_true _ _ LD). cbn [negb stack_eye width]. rewrite CA, Nat.eqb_refl. cbn [negb bind].
  destruct lb as [l|]; cbn [bind concatenate]; [eexists; split; reflexivity|]. cbn [stack_eye width]. rewrite ?CA, ?Nat.eqb_refl. destruct ub as [u|]; cbn [bind negb concatenate vector]; eexists; split; reflexivity.
Qed.
Theorem sparse_ok : forall m n l d reg A b Aeq beq lb ub, top (map (fun e => fst (fst e)) l) = m -> top (map (fun e => snd (fst e)) l) = n ->
  lsqlin (Sparse m n l) d reg A b Aeq beq lb ub = lsqlin (Dense (mat m n (entry_of l))) d reg A b Aeq beq lb ub.
Proof. intros m n l d reg A b Aeq beq lb ub <- <-. reflexivity. Qed.
(* the entries of the dense counterpart *)
Theorem sparse_entry : forall l i j, NoDup (map fst l) -> (forall v, In (i, j, v) l -> entry_of l i j = v) /\ ((forall v, ~ In (i, j, v) l) -> entry_of l i j = 0).
Proof.
  assert (Z0 : forall l i j, (forall v, ~ In (i, j, v) l) -> entry_of l i j = 0).
  { unfold entry_of. intros l i j. induction l as [|[[a b] w] l IH]; intros H; [reflexivity|]. cbn [map]. change (qsum ?h) with (fold_right Qcplus 0 h) in *. cbn [fold_right].
    rewrite IH by (intros v Hv; apply (H v); now right). destruct ((a =? i) && (b =? j))%nat eqn:E; [|ring].
    apply andb_prop in E. destruct E as [E1 E2]. apply Nat.eqb_eq in E1, E2. subst. destruct (H w). now left. }
  intros l i j ND. split; [|apply Z0]. revert ND. induction l as [|[[a b] w] l IH]; intros ND v H; [contradiction|]. cbn [map fst] in ND. inversion ND as [|? ? N1 N2]; subst.
  change (entry_of ((a, b, w) :: l) i j) with ((if ((a =? i) && (b =? j))%nat then w else 0) + entry_of l i j). destruct H as [H|H].
  - assert (a = i /\ b = j /\ w = v) as (-> & -> & ->) by (split; [|split]; congruence). rewrite !Nat.eqb_refl. cbn [andb]. rewrite Z0; [ring|]. intros x Hx. apply N1, in_map_iff. now exists (i, j, x).
  - rewrite (IH N2 v H). destruct ((a =? i) && (b =? j))%nat eqn:E; [|ring]. apply andb_prop in E. destruct E as [E1 E2]. apply Nat.eqb_eq in E1, E2. subst. exfalso. apply N1, in_map_iff. now exists (i, j, v).
Qed.
(* a column of zeros at the end is lost *)
Theorem sparse_column : forall m n l d, top (map (fun e => fst (fst e)) l) = m -> (top (map (fun e => snd (fst e)) l) < n)%nat -> length d = m ->
  exists p, lsqnonneg (Sparse m n l) d = Ok p /\ (length (qp_q p) < n)%nat.
Proof.
  intros m n l d R K L. set (k := top (map (fun e => snd (fst e)) l)) in *. destruct (lsqlin_dense (mat m k (entry_of l)) m k d 0 None None None None (Some [0]) None eq_refl L (Qcle_refl 0) I ltac:(discriminate) I (or_intror eq_refl) I) as (p & E & V & F).
  exists p. assert (E' : lsqnonneg (Sparse m n l) d = Ok p). { unfold lsqnonneg. unfold lsqlin in E |- *. cbn [to_cvxopt] in *. unfold to_spmatrix. rewrite R. exact E. } split; [exact E'|].
  unfold lsqlin in E. cbn [to_cvxopt] in E. rewrite (dot_eq (transpose (mat m k (entry_of l))) (mat m k (entry_of l)) k m k eq_refl eq_refl) in E. cbn [bind] in E. change (rows (mat m k (entry_of l))) with m in E. change (cols (mat m k (entry_of l))) with k in E. rewrite (eqb_true _ _ L) in E. cbn [negb is_sparse option_map squeeze stack_eye bind concatenate vector] in E. unfold solvers_qp in E.
  match type of E with (if ?b then Ok ?r else _) = _ => destruct b; [assert (P : p = r) by congruence|discriminate] end. rewrite P. cbn [qp_q]. now rewrite map_length, seq_length.
Qed.
Theorem sparse_row : forall m n l d, (top (map (fun e => fst (fst e)) l) < m)%nat -> length d = m -> forall reg A b Aeq beq lb ub, lsqlin (Sparse m n l) d reg A b Aeq beq lb ub = Err TypeError.
Proof.
  intros m n l d R L reg A b Aeq beq lb ub. unfold lsqlin. cbn [to_cvxopt]. unfold to_spmatrix. set (k := top _) in *. set (w := top (map (fun e => snd (fst e)) l)). rewrite (dot_eq (transpose (mat k w (entry_of l))) (mat k w (entry_of l)) w k w eq_refl eq_refl). cbn [bind]. change (rows (mat k w (entry_of l))) with k. destruct (Nat.eqb_spec (length d) k); [lia|reflexivity].
Qed.
