From Verif Require Import BaseProofs MatModel MatProofs FitModel FitSpec FitProofs.
Local Open Scope Qc_scope.

Definition mm (k : nat) (P Q : nat -> nat -> Qc) : nat -> nat -> Qc := fun i j => qsumn k (fun t => P i t * Q t j).
Lemma qsumn_mul_r n a f : qsumn n (fun i => f i * a) = qsumn n f * a.
Proof. rewrite (qsumn_ext n _ (fun i => a * f i)) by (intros; ring). rewrite qsumn_mul. ring. Qed.
Lemma mm_assoc k l P Q R i j : mm l (mm k P Q) R i j = mm k P (mm l Q R) i j.
Proof.
  unfold mm. rewrite (qsumn_ext l _ (fun t => qsumn k (fun s => P i s * Q s t * R t j))) by (intros; symmetry; apply qsumn_mul_r).
  rewrite qsumn_swap. apply qsumn_ext. intros s _. rewrite <- qsumn_mul. apply qsumn_ext. intros; ring.
Qed.
Lemma mm_ext k P P' Q Q' i j : (forall t, (t < k)%nat -> P i t = P' i t) -> (forall t, (t < k)%nat -> Q t j = Q' t j) -> mm k P Q i j = mm k P' Q' i j.
Proof. intros H1 H2. apply qsumn_ext. intros t Ht. now rewrite H1, H2. Qed.
Lemma mm_unit_l n P i j : (i < n)%nat -> mm n unit_entries P i j = P i j.
Proof.
  intros Hi. unfold mm, unit_entries. rewrite (qsumn_pick n i); [rewrite Nat.eqb_refl; ring|assumption|].
  intros t _ Ht. destruct (Nat.eqb_spec i t); [congruence|ring].
Qed.
Lemma mm_unit_r n P i j : (j < n)%nat -> mm n P unit_entries i j = P i j.
Proof.
  intros Hi. unfold mm, unit_entries. rewrite (qsumn_pick n j); [rewrite Nat.eqb_refl; ring|assumption|].
  intros t _ Ht. destruct (Nat.eqb_spec t j); [congruence|ring].
Qed.
Definition tr (P : nat -> nat -> Qc) : nat -> nat -> Qc := fun i j => P j i.
Lemma mm_tr k P Q i j : mm k (tr P) (tr Q) i j = mm k Q P j i.
Proof. unfold mm, tr. apply qsumn_ext. intros; ring. Qed.

(* inverses *)
Definition minv (n : nat) (A : nat -> nat -> Qc) : nat -> nat -> Qc :=
  fun i j => det n (setcol A i (fun r => if (r =? j)%nat then 1 else 0)) / det n A.
Lemma minv_ext n A B i j : (forall r c, (r < n)%nat -> (c < n)%nat -> A r c = B r c) -> minv n A i j = minv n B i j.
Proof.
  intros H. unfold minv. rewrite (det_ext n A B H).
  rewrite (det_ext n (setcol A i _) (setcol B i (fun r => if (r =? j)%nat then 1 else 0))); [reflexivity|].
  intros r c Hr Hc. unfold setcol. destruct (c =? i)%nat; [reflexivity|]. now apply H.
Qed.
Lemma minv_right n A i j : det n A <> 0 -> (i < n)%nat -> (j < n)%nat -> mm n A (minv n A) i j = unit_entries i j.
Proof. intros Hd Hi Hj. exact (cramer_solves n A (fun r => if (r =? j)%nat then 1 else 0) Hd i Hi). Qed.
Lemma minv_left n A i j : det n A <> 0 -> (i < n)%nat -> (j < n)%nat -> mm n (minv n A) A i j = unit_entries i j.
Proof.
  intros Hd Hi Hj.
  assert (solves n A (fun _ => 0) (fun k => mm n (minv n A) A k j - unit_entries k j)) as HS.
  { intros r Hr. rewrite (qsumn_ext n _ (fun k => A r k * mm n (minv n A) A k j + - (1) * (A r k * unit_entries k j))) by (intros; ring).
    rewrite qsumn_add, qsumn_mul. change (qsumn n (fun k => A r k * mm n (minv n A) A k j)) with (mm n A (mm n (minv n A) A) r j).
    change (qsumn n (fun k => A r k * unit_entries k j)) with (mm n A unit_entries r j).
    rewrite mm_unit_r by assumption. rewrite <- mm_assoc.
    rewrite (mm_ext n _ unit_entries A A) by (intros; try reflexivity; now apply minv_right). rewrite mm_unit_l by assumption. ring. }
  assert (E := kernel_trivial n A _ Hd HS i Hi). cbv beta in E.
  replace (mm n (minv n A) A i j) with (mm n (minv n A) A i j - unit_entries i j + unit_entries i j) by ring. rewrite E. ring.
Qed.
(* a right inverse is the inverse *)
Lemma minv_unique n A X : det n A <> 0 -> (forall i j, (i < n)%nat -> (j < n)%nat -> mm n A X i j = unit_entries i j) ->
  forall i j, (i < n)%nat -> (j < n)%nat -> minv n A i j = X i j.
Proof.
  intros Hd HX i j Hi Hj. rewrite <- (mm_unit_l n X i j Hi).
  rewrite (mm_ext n unit_entries (mm n (minv n A) A) X X) by (intros; try reflexivity; symmetry; now apply minv_left).
  rewrite mm_assoc. rewrite (mm_ext n _ (minv n A) _ unit_entries) by (intros; try reflexivity; now apply HX).
  now rewrite mm_unit_r.
Qed.
Lemma inv_eq A n : shp A = [n; n] -> inv A = if Qc_eqb (det n (entries A)) 0 then Err LinAlgError else Ok (mat n n (minv n (entries A))).
Proof. intros H. unfold inv, rows, cols. rewrite H. cbn [nth]. rewrite Nat.eqb_refl. reflexivity. Qed.
Lemma dot_eq A B m k n : shp A = [m; k] -> shp B = [k; n] -> dot A B = Ok (mat m n (mm k (entries A) (entries B))).
Proof. intros HA HB. unfold dot, rows, cols. rewrite HA, HB. cbn [nth]. rewrite Nat.eqb_refl. reflexivity. Qed.

Section Cov.
Variables (A : arr Qc) (m n : nat).
Hypothesis HA : shp A = [m; n].
Let a := entries A.

Lemma rowsA : rows A = m. Proof. unfold rows. now rewrite HA. Qed.
Lemma colsA : cols A = n. Proof. unfold cols. now rewrite HA. Qed.
Definition gram : nat -> nat -> Qc := mm m (tr a) a.

Lemma kernel_gram x : (forall i, (i < n)%nat -> qsumn n (fun k => gram i k * x k) = 0) ->
  forall i, (i < m)%nat -> qsumn n (fun k => a i k * x k) = 0.
Proof.
  intros H.
  assert (qsumn m (fun i => qsumn n (fun k => a i k * x k) * qsumn n (fun k => a i k * x k)) = 0) as S0.
  { transitivity (qsumn n (fun l => x l * qsumn n (fun k => gram l k * x k))).
    - rewrite (qsumn_ext m _ (fun i => qsumn n (fun l => x l * (a i l * qsumn n (fun k => a i k * x k))))).
      2:{ intros i _. rewrite <- qsumn_mul_r. apply qsumn_ext. intros; ring. }
      rewrite qsumn_swap. apply qsumn_ext. intros l _. rewrite qsumn_mul. f_equal.
      change (mm m (tr a) (fun i _ => qsumn n (fun k => a i k * x k)) l O = qsumn n (fun k => gram l k * x k)).
      change (mm m (tr a) (mm n a (fun k _ => x k)) l O = mm n gram (fun k _ => x k) l O).
      unfold gram. now rewrite mm_assoc.
    - apply qsumn_zero. intros l Hl. rewrite H by assumption. ring. }
  assert (forall p, (forall i, (i < m)%nat -> 0 <= p i) -> qsumn m p = 0 -> forall i, (i < m)%nat -> p i = 0) as G.
  { clear. induction m as [|k IH]; intros p Hp E i Hi; [lia|]. cbn [qsumn] in E.
    assert (0 <= qsumn k p) as P. { clear E Hi IH. induction k as [|k IH]; [cbn; qclra|]. cbn [qsumn].
      assert (0 <= qsumn k p) by (apply IH; intros; apply Hp; lia). assert (0 <= p k) by (apply Hp; lia). qclra. }
    assert (0 <= p k) by (apply Hp; lia). assert (p k = 0) by qclra. assert (qsumn k p = 0) by qclra.
    destruct (Nat.eq_dec i k) as [->|]; [assumption|]. apply IH; [intros; apply Hp; lia|assumption|lia]. }
  intros i Hi. apply square_zero. refine (G (fun i => qsumn n (fun k => a i k * x k) * qsumn n (fun k => a i k * x k)) _ S0 i Hi).
  intros; apply square_nonneg.
Qed.
Lemma dependent_iff : dependent_columns A <-> det n gram = 0.
Proof.
  unfold dependent_columns. rewrite rowsA, colsA. fold a. split.
  - intros (x & (k & Hk & Hx) & H). destruct (Qc_eq_or (det n gram) 0) as [|Hd]; [assumption|]. exfalso. apply Hx.
    apply (kernel_trivial n gram x Hd); [|assumption]. intros i Hi.
    change (mm n gram (fun k _ => x k) i O = 0). unfold gram. rewrite mm_assoc. apply qsumn_zero. intros t Ht. unfold mm. rewrite H by assumption. ring.
  - intros Hd. destruct (singular n gram Hd) as (x & Hx & HS). exists x. split; [assumption|]. apply kernel_gram. exact HS.
Qed.
Lemma square_dependent : m = n -> (dependent_columns A <-> det n a = 0).
Proof.
  intros E. unfold dependent_columns. rewrite rowsA, colsA. fold a. rewrite E. split.
  - intros (x & (k & Hk & Hx) & H). destruct (Qc_eq_or (det n a) 0) as [|Hd]; [assumption|]. exfalso. apply Hx.
    exact (kernel_trivial n a x Hd H k Hk).
  - apply singular.
Qed.

Definition pinv : nat -> nat -> Qc := mm n (minv n gram) (tr a).
Lemma pinv_left i j : det n gram <> 0 -> (i < n)%nat -> (j < n)%nat -> mm m pinv a i j = unit_entries i j.
Proof. intros Hd Hi Hj. unfold pinv. rewrite mm_assoc. now apply minv_left. Qed.


Lemma propagate_diag M v i j : mm m (fun i j => M i j * nth j v 0) (tr M) i j =
  qsumn m (fun k => qsumn m (fun l => M i k * covariance (Vare v) k l * M j l)).
Proof.
  unfold mm, tr. apply qsumn_ext. intros k Hk. cbn [covariance]. symmetry. rewrite (qsumn_pick m k); [rewrite Nat.eqb_refl; ring|assumption|].
  intros l _ Hl. destruct (Nat.eqb_spec k l); [congruence|ring].
Qed.
Lemma propagate_full M c i j : mm m (mm m M c) (tr M) i j = qsumn m (fun k => qsumn m (fun l => M i k * c k l * M j l)).
Proof.
  unfold mm, tr. rewrite qsumn_swap. apply qsumn_ext. intros k _. rewrite <- qsumn_mul_r. reflexivity.
Qed.

Definition general (e : noise) : result (option (arr Qc)) :=
    let! AA := dot (transpose A) A in
    let! iAA := inv AA in
    let! M := dot iAA (transpose A) in
    match e with
    | Vare v =>
        if negb (length v =? rows A)%nat then Err ValueError
        else
          let! C := dot (mat (cols A) (rows A) (fun i j => entries M i j * nth j v 0)%Qc) (transpose M) in
          Ok (Some C)
    | Cove c =>
        let! B := dot M c in
        let! C := dot B (transpose M) in
        Ok (Some C)
    end.
Lemma transposeA : shp (transpose A) = [n; m] /\ (forall i j, entries (transpose A) i j = tr a i j).
Proof. unfold transpose. rewrite rowsA, colsA. split; reflexivity. Qed.
Lemma general_err e : det n gram = 0 -> general e = Err LinAlgError.
Proof.
  intros Hd. unfold general. rewrite (dot_eq _ _ n m n) by (apply transposeA || exact HA). cbn [bind].
  rewrite (inv_eq _ n) by reflexivity.
  change (det n (entries (mat n n (mm m (entries (transpose A)) (entries A))))) with (det n (mm m (entries (transpose A)) (entries A))).
  rewrite (det_ext n _ gram) by (intros; apply mm_ext; intros; [apply transposeA|reflexivity]).
  rewrite Hd. reflexivity.
Qed.
Lemma general_ok e : det n gram <> 0 -> noise_shape m e ->
  exists M C, general e = Ok (Some C) /\ estimator M A /\ propagated M e C.
Proof.
  intros Hd He. unfold general. rewrite (dot_eq _ _ n m n) by (apply transposeA || exact HA). cbn [bind].
  rewrite (inv_eq _ n) by reflexivity.
  change (det n (entries (mat n n (mm m (entries (transpose A)) (entries A))))) with (det n (mm m (entries (transpose A)) (entries A))).
  rewrite (det_ext n _ gram) by (intros; apply mm_ext; intros; [apply transposeA|reflexivity]).
  destruct (Qc_eqb (det n gram) 0) eqn:E; [qc_bool; contradiction|]. cbn [bind].
  set (I := mat n n (minv n (entries (mat n n (mm m (entries (transpose A)) (entries A)))))).
  assert (forall i j, (i < n)%nat -> (j < n)%nat -> entries I i j = minv n gram i j) as HI.
  { intros i j Hi Hj. unfold I. change (minv n (mm m (entries (transpose A)) (entries A)) i j = minv n gram i j).
    apply minv_ext. intros. apply mm_ext; intros; try reflexivity; apply transposeA. }
  rewrite (dot_eq I _ n n m) by (reflexivity || apply transposeA). cbn [bind].
  set (M := mat n m (mm n (entries I) (entries (transpose A)))).
  assert (forall i j, (i < n)%nat -> entries M i j = pinv i j) as HM.
  { intros i j Hi. unfold M. change (mm n (entries I) (entries (transpose A)) i j = pinv i j). unfold pinv.
    apply mm_ext; intros; [now apply HI|apply transposeA]. }
  assert (estimator M A) as HL.
  { unfold estimator. rewrite rowsA, colsA. split; [reflexivity|]. split.
    { intros i j Hi Hj. change (mm n gram (entries M) i j = tr a i j).
      rewrite (mm_ext n gram gram _ pinv) by (intros; try reflexivity; now apply HM). unfold pinv. rewrite <- mm_assoc.
      rewrite (mm_ext n _ unit_entries (tr a) (tr a)) by (intros; try reflexivity; now apply minv_right). now rewrite mm_unit_l. }
    intros i j Hi Hj.
    etransitivity; [|exact (pinv_left i j Hd Hi Hj)]. unfold mm. apply qsumn_ext. intros k _. now rewrite HM. }
  exists M. destruct e as [v|c]; cbn [noise_shape] in He.
  - rewrite rowsA, colsA, He, Nat.eqb_refl. cbn [negb].
    rewrite (dot_eq _ (transpose M) n m n) by reflexivity. cbn [bind]. eexists. split; [reflexivity|]. split; [exact HL|].
    split; [reflexivity|]. intros i j Hi Hj. exact (propagate_diag (entries M) v i j).
  - rewrite (dot_eq M c n m m) by (reflexivity || exact He). cbn [bind].
    rewrite (dot_eq _ (transpose M) n m n) by reflexivity. cbn [bind]. eexists. split; [reflexivity|]. split; [exact HL|].
    split; [reflexivity|]. intros i j Hi Hj. exact (propagate_full (entries M) (entries c) i j).
Qed.
End Cov.

Lemma minv_left_inverse A n : shp A = [n; n] -> det n (entries A) <> 0 -> estimator (mat n n (minv n (entries A))) A.
Proof.
  intros HA Hd. unfold estimator, rows, cols. rewrite HA. cbn [nth]. split; [reflexivity|]. split.
  - intros i j Hi Hj. change (mm n (mm n (tr (entries A)) (entries A)) (minv n (entries A)) i j = tr (entries A) i j).
    rewrite mm_assoc. rewrite (mm_ext n _ (tr (entries A)) _ unit_entries) by (intros; try reflexivity; now apply minv_right).
    now rewrite mm_unit_r.
  - intros i j Hi Hj. now apply minv_left.
Qed.

Lemma square_ok A n e : shp A = [n; n] -> det n (entries A) <> 0 -> noise_shape n e -> no_zero_variance e ->
  exists M C, lstsq_cov_square A e = Ok (Some C) /\ estimator M A /\ propagated M e C.
Proof.
  intros HA Hd He Hz. set (a := entries A) in *. exists (mat n n (minv n a)). unfold lstsq_cov_square.
  assert (rows A = n) as HR by (unfold rows; now rewrite HA). assert (cols A = n) as HC by (unfold cols; now rewrite HA).
  destruct e as [v|c]; cbn [noise_shape no_zero_variance] in *.
  - rewrite HR, HC, He, Nat.eqb_refl. cbn [negb].
    destruct (existsb (fun q => Qc_eqb q 0) v) eqn:Ex.
    { exfalso. apply existsb_exists in Ex as [q [Hq E]]. qc_bool. subst. contradiction. }
    rewrite (dot_eq _ _ n n n) by (reflexivity || (unfold transpose; rewrite HR, HC; reflexivity)). cbn [bind].
    set (B := mm n (entries (transpose A)) (entries (mat n n (fun i j => entries A i j / nth i v 0)))).
    rewrite (inv_eq _ n) by reflexivity. change (entries (mat n n B)) with B.
    set (Vi := fun i j : nat => if (i =? j)%nat then / nth i v 0 else 0).
    set (V := fun i j : nat => if (i =? j)%nat then nth i v 0 else 0).
    assert (forall i, (i < n)%nat -> nth i v 0 <> 0) as Hv.
    { intros i Hi E. apply Hz. rewrite <- E. apply nth_In. lia. }
    assert (forall i j, (i < n)%nat -> (j < n)%nat -> B i j = mm n (tr a) (mm n Vi a) i j) as HB.
    { intros i j Hi Hj. unfold B. apply mm_ext; intros t Ht.
      - unfold transpose. rewrite HR, HC. reflexivity.
      - change (a t j / nth t v 0 = mm n Vi a t j). unfold mm, Vi. rewrite (qsumn_pick n t); [rewrite Nat.eqb_refl; unfold Qcdiv; ring|assumption|].
        intros l _ Hl. destruct (Nat.eqb_spec t l); [congruence|ring]. }
    set (X := mm n (mm n (minv n a) V) (tr (minv n a))).
    assert (forall i j, (i < n)%nat -> (j < n)%nat -> mm n B X i j = unit_entries i j) as HX.
    { intros i j Hi Hj.
      rewrite (mm_ext n B (mm n (tr a) (mm n Vi a)) X X) by (intros; try reflexivity; now apply HB).
      rewrite mm_assoc. rewrite (mm_ext n (tr a) (tr a) _ (tr (minv n a))); [|reflexivity|].
      - rewrite mm_tr. rewrite minv_left by assumption. unfold unit_entries. now rewrite Nat.eqb_sym.
      - intros t Ht. rewrite mm_assoc. unfold X.
        rewrite (mm_ext n Vi Vi _ (mm n V (tr (minv n a)))); [|reflexivity|].
        + unfold mm at 1. rewrite (qsumn_pick n t); [|assumption|].
          * unfold Vi. rewrite Nat.eqb_refl. unfold mm, V. rewrite (qsumn_pick n t); [|assumption|].
            -- rewrite Nat.eqb_refl. field. now apply Hv.
            -- intros l _ Hl. destruct (Nat.eqb_spec t l); [congruence|ring].
          * intros l _ Hl. unfold Vi. destruct (Nat.eqb_spec t l); [congruence|ring].
        + intros s Hs. rewrite (mm_ext n a a _ (mm n (minv n a) (mm n V (tr (minv n a))))) by (intros; try reflexivity; apply mm_assoc).
          rewrite <- mm_assoc.
          rewrite (mm_ext n _ unit_entries _ (mm n V (tr (minv n a)))) by (intros; try reflexivity; now apply minv_right).
          now rewrite mm_unit_l. }
    assert (det n B <> 0) as HdB.
    { intros E. destruct (singular n B E) as (x & (k & Hk & Hx) & HS). apply Hx. apply (kernel_trivial n a x Hd); [|assumption].
      intros i Hi.
      (* a^T (Vi a x) = 0 so Vi a x = 0 *)
      assert (forall t, (t < n)%nat -> mm n Vi (fun r _ => mm n a (fun k _ => x k) r O) t O = 0) as HV.
      { intros t Ht. assert (det n (tr a) <> 0) as Hdt.
        { intros E2. destruct (singular n (tr a) E2) as (z & (q & Hq & Hzq) & HZ). apply Hzq.
          (* z^T a = 0 -> z = 0 *)
          assert (mm n (fun _ r => z r) unit_entries O q = 0) as R.
          { rewrite (mm_ext n _ (fun _ r => z r) _ (mm n a (minv n a))) by (intros; try reflexivity; symmetry; now apply minv_right).
            rewrite <- mm_assoc. apply qsumn_zero. intros p Hp. assert (mm n (fun _ r => z r) a O p = 0) as ->; [|ring].
            rewrite <- (HZ p Hp). unfold mm, tr. apply qsumn_ext. intros; ring. }
          now rewrite mm_unit_r in R. }
        apply (kernel_trivial n (tr a) (fun t => mm n Vi (fun r _ => mm n a (fun k _ => x k) r O) t O) Hdt); [|assumption].
        intros r Hr. rewrite <- (HS r Hr).
        change (mm n (tr a) (mm n Vi (mm n a (fun k _ => x k))) r O = mm n B (fun k _ => x k) r O).
        rewrite (mm_ext n B (mm n (tr a) (mm n Vi a)) (fun k _ => x k) (fun k _ => x k)) by (intros; try reflexivity; now apply HB).
        rewrite mm_assoc. apply mm_ext; [reflexivity|]. intros t0 Ht0. now rewrite mm_assoc. }
      specialize (HV i Hi). unfold mm at 1 in HV. rewrite (qsumn_pick n i) in HV; [|assumption|].
      - unfold Vi in HV. rewrite Nat.eqb_refl in HV. apply Qcmult_integral in HV as [HV|HV]; [|exact HV].
        exfalso. specialize (Hv i Hi). assert (nth i v 0 * / nth i v 0 = 1) as U by (field; assumption). rewrite HV in U.
        rewrite Qcmult_comm in U. assert (0 * nth i v 0 = 0) as W by ring. rewrite W in U. discriminate.
      - intros l _ Hl. unfold Vi. destruct (Nat.eqb_spec i l); [congruence|ring]. }
    destruct (Qc_eqb (det n B) 0) eqn:EB; [qc_bool; contradiction|]. cbn [bind]. eexists. split; [reflexivity|].
    split; [now apply minv_left_inverse|]. split; [reflexivity|]. intros i j Hi Hj.
    change (minv n B i j = qsumn n (fun k => qsumn n (fun l => minv n a i k * V k l * minv n a j l))).
    rewrite (minv_unique n B X HdB HX i j Hi Hj). unfold X. exact (propagate_full n (minv n a) V i j).
  - rewrite (inv_eq A n HA). fold a. destruct (Qc_eqb (det n a) 0) eqn:E; [qc_bool; contradiction|]. cbn [bind].
    rewrite (dot_eq c _ n n n) by (exact He || reflexivity). cbn [bind].
    rewrite (dot_eq _ _ n n n) by reflexivity. cbn [bind]. eexists. split; [reflexivity|].
    split; [now apply minv_left_inverse|]. split; [reflexivity|]. intros i j Hi Hj.
    change (mm n (minv n a) (mm n (entries c) (tr (minv n a))) i j = qsumn n (fun k => qsumn n (fun l => minv n a i k * entries c k l * minv n a j l))).
    rewrite <- mm_assoc. apply propagate_full.
Qed.
Lemma square_err A n e : shp A = [n; n] -> det n (entries A) = 0 -> noise_shape n e -> no_zero_variance e ->
  lstsq_cov_square A e = Err LinAlgError.
Proof.
  intros HA Hd He Hz. set (a := entries A) in *. unfold lstsq_cov_square.
  assert (rows A = n) as HR by (unfold rows; now rewrite HA). assert (cols A = n) as HC by (unfold cols; now rewrite HA).
  destruct e as [v|c]; cbn [noise_shape no_zero_variance] in *.
  - rewrite HR, HC, He, Nat.eqb_refl. cbn [negb].
    destruct (existsb (fun q => Qc_eqb q 0) v) eqn:Ex.
    { exfalso. apply existsb_exists in Ex as [q [Hq E]]. qc_bool. subst. contradiction. }
    rewrite (dot_eq _ _ n n n) by (reflexivity || (unfold transpose; rewrite HR, HC; reflexivity)). cbn [bind].
    rewrite (inv_eq _ n) by reflexivity.
    set (B := mm n _ _). change (entries (mat n n B)) with B.
    destruct (Qc_eqb (det n B) 0) eqn:EB; [reflexivity|]. qc_bool. exfalso.
    destruct (singular n a Hd) as (x & (k & Hk & Hx) & HS). apply Hx. apply (kernel_trivial n B x EB); [|assumption].
    intros i Hi. change (mm n B (fun k _ => x k) i O = 0). unfold B. rewrite mm_assoc. apply qsumn_zero. intros t Ht.
    assert (mm n (entries (mat n n (fun i j => entries A i j / nth i v 0))) (fun k _ => x k) t O = 0) as ->; [|ring].
    transitivity (/ nth t v 0 * qsumn n (fun k => a t k * x k)); [|rewrite HS by assumption; ring].
    rewrite <- qsumn_mul. apply qsumn_ext. intros l _. change (a t l / nth t v 0 * x l = / nth t v 0 * (a t l * x l)). unfold Qcdiv. ring.
  - rewrite (inv_eq A n HA). fold a. rewrite Hd. reflexivity.
Qed.

Lemma cov_spec A m n e : shp A = [m; n] -> noise_shape m e -> (m = n -> no_zero_variance e) ->
  (dependent_columns A -> lstsq_cov A e = Err LinAlgError) /\
  (~ dependent_columns A -> exists M C, lstsq_cov A e = Ok (Some C) /\ estimator M A /\ propagated M e C).
Proof.
  intros HA He Hz. assert (rows A = m) as HR by (unfold rows; now rewrite HA). assert (cols A = n) as HC by (unfold cols; now rewrite HA).
  assert (lstsq_cov A e = if (m =? n)%nat then match lstsq_cov_square A e with Err LinAlgError => general A e | r => r end else general A e) as E.
  { unfold lstsq_cov. rewrite HR, HC at 1. reflexivity. }
  rewrite E. destruct (Nat.eqb_spec m n) as [->|Hne].
  - split; intros Hd.
    + rewrite (square_err A n); [|assumption|now apply (square_dependent A n n HA eq_refl)|assumption|auto].
      apply (general_err A n n HA). now apply (dependent_iff A n n HA).
    + destruct (square_ok A n e) as (M & C & H1 & H2 & H3); [assumption| |assumption|auto|].
      { intros D. apply Hd. now apply (square_dependent A n n HA eq_refl). }
      exists M, C. rewrite H1. auto.
  - split; intros Hd.
    + apply (general_err A m n HA). now apply (dependent_iff A m n HA).
    + apply (general_ok A m n HA); [|assumption]. intros D. apply Hd. now apply (dependent_iff A m n HA).
Qed.

(* an estimator is determined by A *)
Lemma estimator_pinv A m n M : shp A = [m; n] -> det n (gram A m) <> 0 -> estimator M A ->
  forall i j, (i < n)%nat -> (j < m)%nat -> entries M i j = pinv A m n i j.
Proof.
  intros HA Hd (_ & HN & _) i j Hi Hj. unfold rows, cols in HN. rewrite HA in HN. cbn [nth] in HN.
  assert (forall t, (t < n)%nat -> mm n (gram A m) (entries M) t j = tr (entries A) t j) as HN' by (intros; now apply HN).
  rewrite <- (mm_unit_l n (entries M) i j Hi).
  rewrite (mm_ext n unit_entries (mm n (minv n (gram A m)) (gram A m)) _ (entries M)) by (intros; try reflexivity; symmetry; now apply minv_left).
  rewrite mm_assoc. apply mm_ext; [reflexivity|]. intros t Ht. now apply HN'.
Qed.
Lemma nth_repeat_lt {T} (s d : T) m k : (k < m)%nat -> nth k (repeat s m) d = s.
Proof. revert k. induction m as [|m IH]; intros [|k] H; try lia; [reflexivity|]. cbn. apply IH. lia. Qed.
(* errors of equal variance: s times the inverse of transpose(A) A *)
Lemma equal_variance A m n s C : shp A = [m; n] -> (m = n -> s <> 0) -> lstsq_cov A (Vare (repeat s m)) = Ok (Some C) ->
  det n (gram A m) <> 0 /\ shp C = [n; n] /\ forall i j, (i < n)%nat -> (j < n)%nat -> entries C i j = s * minv n (gram A m) j i.
Proof.
  intros HA Hs HC. destruct (cov_spec A m n (Vare (repeat s m)) HA) as [H1 H2].
  { cbn. apply repeat_length. }
  { cbn. intros E Hin. apply repeat_spec in Hin. subst. now apply Hs. }
  assert (det n (gram A m) <> 0) as Hd.
  { intros E. rewrite H1 in HC; [discriminate|]. now apply (dependent_iff A m n HA). }
  split; [assumption|]. destruct H2 as (M & C' & E & HM & HP); [intros D; now apply (dependent_iff A m n HA) in D|].
  rewrite HC in E. injection E as <-. destruct HP as [HPs HP].
  assert (shp M = [n; m]) as HMs. { destruct HM as [HMs _]. unfold rows, cols in HMs. rewrite HA in HMs. exact HMs. }
  unfold rows, cols in *. rewrite HMs in *. cbn [nth] in *. split; [assumption|]. intros i j Hi Hj. rewrite HP by assumption.
  assert (forall i j, (i < n)%nat -> (j < m)%nat -> entries M i j = pinv A m n i j) as HMP by now apply estimator_pinv.
  transitivity (s * mm m (pinv A m n) (tr (pinv A m n)) i j).
  - unfold mm. rewrite <- qsumn_mul. apply qsumn_ext. intros k Hk. rewrite (qsumn_pick m k); [|assumption|].
    + cbn [covariance]. rewrite Nat.eqb_refl, nth_repeat_lt by assumption. rewrite !HMP by assumption. unfold tr. ring.
    + intros l _ Hl. cbn [covariance]. destruct (Nat.eqb_spec k l); [congruence|ring].
  - f_equal. unfold pinv. rewrite mm_assoc.
    rewrite (mm_ext n _ (minv n (gram A m)) _ (mm n (gram A m) (tr (minv n (gram A m))))); [|reflexivity|].
    + rewrite <- mm_assoc. rewrite (mm_ext n _ unit_entries _ (tr (minv n (gram A m)))) by (intros; try reflexivity; now apply minv_left).
      now rewrite mm_unit_l.
    + intros t Ht. unfold gram at 2. rewrite mm_assoc. apply mm_ext; [reflexivity|]. intros r Hr.
      unfold tr at 1. unfold mm, tr. apply qsumn_ext. intros; ring.
Qed.

(* ---- the straight line ---- *)
Lemma qsumn_list (x : list Qc) f : qsumn (length x) (fun i => f (nth i x 0)) = qsum (map f x).
Proof.
  induction x as [|a x IH]; [reflexivity|]. cbn [length]. rewrite qsumn_first. cbn [nth map qsum fold_right].
  change (fold_right Qcplus 0 (map f x)) with (qsum (map f x)). now rewrite <- IH.
Qed.
Lemma qsum_map_ext {T} (f g : T -> Qc) l : (forall q, In q l -> f q = g q) -> qsum (map f l) = qsum (map g l).
Proof. intros H. f_equal. now apply map_ext_in. Qed.
Lemma gram_line x : gram (line_matrix x) (length x) 0%nat 0%nat = sxy x x /\ gram (line_matrix x) (length x) 0%nat 1%nat = qsum x /\
  gram (line_matrix x) (length x) 1%nat 0%nat = qsum x /\ gram (line_matrix x) (length x) 1%nat 1%nat = qlen x.
Proof.
  unfold gram, mm, tr, line_matrix, entries, mat, elt. cbn [Nat.eqb].
  assert (sxy x x = qsum (map (fun a => a * a) x)) as E1.
  { unfold sxy. induction x as [|a x IH]; [reflexivity|]. cbn [combine map qsum fold_right fst snd]. unfold qsum in IH. now rewrite IH. }
  assert (qsum x = qsum (map (fun a => a) x)) as E2 by now rewrite map_id.
  assert (qlen x = qsum (map (fun _ => 1) x)) as E3.
  { clear. induction x as [|a x IH]; [reflexivity|]. rewrite qlen_cons, IH. cbn [map qsum fold_right]. unfold qsum. ring. }
  rewrite E1, E2, E3, <- !qsumn_list. repeat split; apply qsumn_ext; intros; ring.
Qed.
Lemma det2 M : det 2 M = M O O * M 1%nat 1%nat - M O 1%nat * M 1%nat O.
Proof. unfold det, qsumn, minor, alternate; cbn [Nat.even Nat.ltb Nat.leb]. ring. Qed.
Lemma det1 M : det 1 M = M O O.
Proof. unfold det, qsumn, minor, alternate; cbn [Nat.even Nat.ltb Nat.leb]. ring. Qed.
Lemma det_gram_line x : det 2 (gram (line_matrix x) (length x)) = denom x.
Proof. rewrite det2. destruct (gram_line x) as (-> & -> & -> & ->). unfold denom. ring. Qed.
Lemma minv_line x : minv 2 (gram (line_matrix x) (length x)) O O = qlen x / denom x /\
  minv 2 (gram (line_matrix x) (length x)) 1%nat 1%nat = sxy x x / denom x.
Proof.
  unfold minv. rewrite det_gram_line, !det2. unfold setcol. cbn [Nat.eqb]. destruct (gram_line x) as (-> & -> & -> & ->).
  split; f_equal; ring.
Qed.

(* residuals, their sum of squares, and their mean *)
Definition residuals (x y : list Qc) (m b : Qc) : list Qc := map (fun p => m * fst p + b - snd p) (combine x y).
Lemma residuals_squares x y m b : qsum (map (fun r => r * r) (residuals x y m b)) = ssr x y m b.
Proof. unfold residuals, ssr. rewrite map_map. apply qsum_map_ext. intros q _. ring. Qed.
Lemma qsum_residuals x y m b : length x = length y -> qsum (residuals x y m b) = m * qsum x + qlen x * b - qsum y.
Proof.
  unfold residuals. revert y. induction x as [|a x IH]; intros [|c y] H; try discriminate.
  - cbn. change (qlen (@nil Qc)) with 0. ring.
  - cbn in H. injection H as H. cbn [combine map qsum fold_right fst snd]. unfold qsum in *. rewrite (IH y H), qlen_cons. ring.
Qed.
Lemma residuals_length x y m b : length x = length y -> length (residuals x y m b) = length x.
Proof. intros H. unfold residuals. rewrite map_length, combine_length, H. apply Nat.min_id. Qed.
Lemma residual_list x y m b : length x = length y ->
  map (fun i => qsumn 2 (fun k => entries (line_matrix x) i k * nth k [m; b] 0) - nth i y 0) (seq 0 (length x)) = residuals x y m b.
Proof.
  intros H. unfold residuals. apply nth_ext with (d := 0) (d' := m * 0 + b - 0); [now rewrite !map_length, seq_length, combine_length, H, Nat.min_id|].
  intros i Hi. rewrite map_length, seq_length in Hi.
  rewrite (nth_indep _ 0 ((fun i => qsumn 2 (fun k => entries (line_matrix x) i k * nth k [m; b] 0) - nth i y 0) 0%nat)) by now rewrite map_length, seq_length.
  rewrite (map_nth (fun i => qsumn 2 (fun k => entries (line_matrix x) i k * nth k [m; b] 0) - nth i y 0)).
  rewrite (map_nth (fun p => m * fst p + b - snd p) (combine x y) (0, 0)).
  rewrite seq_nth by assumption. rewrite combine_nth by assumption. cbn [Nat.add fst snd qsumn nth].
  unfold line_matrix, entries, mat, elt. cbn [Nat.eqb]. ring.
Qed.
Lemma fit_sum_zero x y m b : length x = length y -> linfit2 x y false = Ok (Some m, Some b) -> m * qsum x + qlen x * b - qsum y = 0.
Proof.
  intros H. rewrite linfit2_eq by assumption. intros [= E1 E2]. apply fdiv_some in E1 as [Hd E1]. apply fdiv_some in E2 as [_ E2].
  rewrite E1, E2. unfold denom in *. field. assumption.
Qed.
Lemma np_var_centred r k : r <> [] -> qsum r = 0 -> np_var r k = fdiv (qsum (map (fun q => q * q) r)) (qlen r - Qc_of_Z (Z.of_nat k)).
Proof.
  intros Hr H0. destruct r as [|a r]; [contradiction|]. cbn [np_var]. rewrite H0. f_equal. apply qsum_map_ext. intros q _.
  replace (0 / qlen (a :: r)) with 0 by (unfold Qcdiv; ring). ring.
Qed.
Lemma qlen_same {S T} (x : list S) (y : list T) : length x = length y -> qlen x = qlen y.
Proof. unfold qlen. now intros ->. Qed.

Lemma fit_errors x y m b : length x = length y -> (3 <= length x)%nat -> linfit2 x y false = Ok (Some m, Some b) ->
  let s := ssr x y m b / (qlen x - Qc_of_Z 2) in
  let vm := s * qlen x / (qlen x * qsum (map (fun a => a * a) x) - qsum x * qsum x) in
  let vb := s * qsum (map (fun a => a * a) x) / (qlen x * qsum (map (fun a => a * a) x) - qsum x * qsum x) in
  linfit2_errors x y false = Ok ((Some m, Some b), (Some vm, Some vb)) /\
  lstsq_std (line_matrix x) y [m; b] None = Ok (Some [vm; vb]).
Proof.
  intros H H3 HF s vm vb.
  assert (sxy x x = qsum (map (fun a => a * a) x)) as Exx.
  { clear. unfold sxy. induction x as [|a x IH]; [reflexivity|]. cbn [combine map qsum fold_right fst snd]. unfold qsum in IH. now rewrite IH. }
  assert (varied x) as Hv. { apply denom_varied. rewrite linfit2_eq in HF by assumption. injection HF as E1 _. now apply fdiv_some in E1. }
  apply denom_varied in Hv.
  assert (qlen x - Qc_of_Z 2 <> 0) as Hn2.
  { unfold qlen. rewrite <- Qc_of_Z_minus. change 0 with (Qc_of_Z 0). rewrite Qc_of_Z_inj. lia. }
  assert (qlen x <> 0) as Hn by (apply qlen_ne; destruct x; [cbn in H3; lia|discriminate]).
  assert (vm = s * qlen x / denom x) as Em by (unfold vm, denom; now rewrite Exx).
  assert (vb = s * sxy x x / denom x) as Eb by (unfold vb, denom; now rewrite Exx).
  split.
  - unfold linfit2_errors. rewrite HF. cbn [bind fst]. rewrite (times_ok x y H), (times_ok x x eq_refl), (times_ok y y eq_refl). cbn [bind].
    fold (sxy x y) (sxy x x) (sxy y y). fold (denom x).
    assert (qlen x * sxy y y - qsum y * qsum y - m * (qlen x * sxy x y - qsum x * qsum y) = qlen x * ssr x y m b) as EN.
    { rewrite ssr_expand by assumption. rewrite linfit2_eq in HF by assumption. injection HF as E1 E2.
      apply fdiv_some in E1 as [_ E1]. apply fdiv_some in E2 as [_ E2]. unfold denom in *. change (Qc_of_Z 2) with (1 + 1) in *.
      set (Sxx := sxy x x) in *. set (Sxy := sxy x y) in *. set (Syy := sxy y y) in *. set (Sx := qsum x) in *. set (Sy := qsum y) in *. set (n := qlen x) in *.
      rewrite E1, E2. field. assumption. }
    rewrite EN. rewrite !fdiv_ok.
    + repeat f_equal; [rewrite Em|rewrite Eb]; unfold s; field; auto.
    + intros E. apply Qcmult_integral in E as [E|E]; [|contradiction]. apply Qcmult_integral in E as [E|E]; contradiction.
    + intros E. apply Qcmult_integral in E as [E|E]; contradiction.
  - unfold lstsq_std. change (rows (line_matrix x)) with (length x). change (cols (line_matrix x)) with 2%nat.
    rewrite <- H, Nat.eqb_refl. cbn [negb orb length Nat.eqb bind]. rewrite residual_list by assumption.
    rewrite np_var_centred.
    2:{ intros E. apply (f_equal (@length Qc)) in E. rewrite residuals_length in E by assumption. cbn in E. lia. }
    2:{ rewrite qsum_residuals by assumption. now apply fit_sum_zero. }
    rewrite residuals_squares, (qlen_same _ x (residuals_length x y m b H)). change (Z.of_nat 2) with 2%Z.
    rewrite fdiv_ok by assumption. fold s. cbn [option_map bind].
    destruct (cov_spec (line_matrix x) (length x) 2 (Vare (repeat s (length x))) eq_refl) as [_ C2].
    { cbn. apply repeat_length. }
    { intros E. lia. }
    destruct C2 as (M & C & HC & _). { intros D. apply (dependent_iff (line_matrix x) (length x) 2 eq_refl) in D. rewrite det_gram_line in D. contradiction. }
    rewrite HC. cbn [bind option_map]. f_equal. f_equal.
    destruct (equal_variance (line_matrix x) (length x) 2 s C eq_refl ltac:(lia) HC) as (_ & HS & HE).
    unfold rows. rewrite HS. cbn [nth seq map]. rewrite !HE by lia. destruct (minv_line x) as [-> ->]. rewrite Em, Eb.
    f_equal; [|f_equal]; field; assumption.
Qed.

Lemma origin_errors : exists x y m v v',
  linfit_zerointercept2_errors x y = Ok (Some m, Some v) /\ lstsq_std (origin_matrix x) y [m] None = Ok (Some [v']) /\ v <> v'.
Proof.
  exists [1; Qc_of_Z 2], [1; 0], (Q2Qc (1 # 5)), (Q2Qc (4 # 25)), (Q2Qc (18 # 125)).
  split; [|split; [|discriminate]].
  - apply ok_pair_eq. vm_compute. reflexivity.
  - assert (forall r : result (option (list Qc)), match r with Ok (Some [q]) => Qc_eqb q (Q2Qc (18 # 125)) | _ => false end = true -> r = Ok (Some [Q2Qc (18 # 125)])) as K.
    { intros [[[|q [|]]|]|]; try discriminate. intros H. qc_bool. now rewrite H. }
    apply K. vm_compute. reflexivity.
Qed.
