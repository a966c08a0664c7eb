From Verif Require Import ScalarModel ScalarSpec ScalarProofs.
From Coq Require Import Lia.
Local Open Scope Qc_scope.

Lemma put_perm x l : Permutation (x :: l) (put x l).
Proof.
  induction l as [|y l IH]; cbn [put]; [reflexivity|]. destruct (Qc_leb x y); [reflexivity|].
  rewrite perm_swap. now apply perm_skip.
Qed.
Lemma order_perm l : Permutation l (order l).
Proof. induction l as [|x l IH]; cbn [order]; [constructor|]. rewrite <- put_perm. now apply perm_skip. Qed.
Lemma put_sorted x l : StronglySorted Qcle l -> StronglySorted Qcle (put x l).
Proof.
  induction 1 as [|y l S IH F]; cbn [put]; [repeat constructor|]. destruct (Qc_leb x y) eqn:E; qc_bool.
  - constructor; [constructor; assumption|]. constructor; [exact E|]. eapply Forall_impl; [|exact F]. cbn. intros; qclra.
  - constructor; [exact IH|]. rewrite <- put_perm. constructor; [qclra|exact F].
Qed.
Lemma order_sorted l : StronglySorted Qcle (order l).
Proof. induction l as [|x l IH]; cbn [order]; [constructor|now apply put_sorted]. Qed.
Lemma sorted_perm_eq (l : list Qc) : forall u, StronglySorted Qcle l -> StronglySorted Qcle u -> Permutation l u -> l = u.
Proof.
  induction l as [|a l IH]; intros u L U P.
  - apply Permutation_nil in P. now subst.
  - destruct u as [|b u]; [symmetry in P; apply Permutation_nil in P; discriminate P|].
    inversion L; subst. inversion U; subst. rewrite Forall_forall in H2, H4.
    assert (a = b).
    { assert (A : In a (b :: u)) by (apply (Permutation_in _ P); left; reflexivity).
      assert (B : In b (a :: l)) by (apply (Permutation_in _ (Permutation_sym P)); left; reflexivity).
      destruct A as [->|A]; [reflexivity|]. destruct B as [->|B]; [reflexivity|].
      apply H4 in A. apply H2 in B. now apply Qcle_antisym. }
    subst b. f_equal. apply IH; try assumption. now apply Permutation_cons_inv in P.
Qed.
Lemma two_nz : 1 + 1 <> 0. Proof. discriminate. Qed.
Lemma double_inj a b : a + a = b + b -> a = b.
Proof. intros. qclra. Qed.
Lemma div2_odd n : Nat.odd n = true -> n = S (Nat.div2 n + Nat.div2 n).
Proof. intros H. pose proof (Nat.div2_odd n) as E. rewrite H in E. cbn in E. lia. Qed.
Lemma div2_even n : Nat.odd n = false -> n = (Nat.div2 n + Nat.div2 n)%nat.
Proof. intros H. pose proof (Nat.div2_odd n) as E. rewrite H in E. cbn in E. lia. Qed.
Lemma nth_error_nth_lt (u : list Qc) k : (k < length u)%nat -> nth_error u k = Some (nth k u 0).
Proof. intros H. now apply nth_error_nth'. Qed.
Theorem median_spec : forall l, l <> [] -> is_median l (median l).
Proof.
  intros l N. exists (order l). split; [apply order_perm|]. split; [apply order_sorted|].
  assert (LEN : length (order l) = length l) by (symmetry; apply Permutation_length, order_perm).
  assert (P : (0 < length l)%nat) by (destruct l; [contradiction|cbn; lia]).
  unfold median. destruct (Nat.odd (length l)) eqn:O.
  - left. apply div2_odd in O. set (k := Nat.div2 (length l)) in *. exists k. split; [exact O|].
    apply nth_error_nth_lt. lia.
  - right. apply div2_even in O. set (k := Nat.div2 (length l)) in *. exists (k - 1)%nat, (nth (k - 1) (order l) 0), (nth k (order l) 0).
    split; [lia|]. split; [apply nth_error_nth_lt; lia|]. replace (S (k - 1)) with k by lia. split; [apply nth_error_nth_lt; lia|].
    generalize (nth (k - 1) (order l) 0), (nth k (order l) 0). intros a b. field. exact two_nz.
Qed.
Theorem median_unique : forall l m m', is_median l m -> is_median l m' -> m = m'.
Proof.
  intros l m m' (u & P & S & H) (u' & P' & S' & H').
  assert (u = u') by (apply sorted_perm_eq; try assumption; rewrite <- P; exact P'). subst u'.
  destruct H as [(k & L & A)|(k & a & b & L & A & B & E)], H' as [(k' & L' & A')|(k' & a' & b' & L' & A' & B' & E')].
  - assert (k = k') by lia. subst. congruence.
  - exfalso. lia.
  - exfalso. lia.
  - assert (k = k') by lia. subst. assert (a = a') by congruence. assert (b = b') by congruence. subst.
    apply double_inj. congruence.
Qed.
Lemma median_is l m : l <> [] -> is_median l m -> median l = m.
Proof. intros N H. apply (median_unique l); [now apply median_spec|exact H]. Qed.

Lemma sorted_map (f : Qc -> Qc) l : (forall a b, a <= b -> f a <= f b) -> StronglySorted Qcle l -> StronglySorted Qcle (map f l).
Proof.
  intros M. induction 1 as [|a l S IH F]; cbn [map]; constructor; [exact IH|]. apply Forall_map.
  eapply Forall_impl; [|exact F]. cbn. auto.
Qed.
Lemma sorted_app (R : Qc -> Qc -> Prop) l : forall u, StronglySorted R l -> StronglySorted R u -> (forall a b, In a l -> In b u -> R a b) ->
  StronglySorted R (l ++ u).
Proof.
  induction l as [|a l IH]; intros u L U H; cbn [app]; [exact U|]. inversion L; subst. constructor.
  - apply IH; try assumption. intros; apply H; [right|]; assumption.
  - rewrite Forall_forall in *. intros b B. apply in_app_or in B. destruct B as [B|B]; [auto|apply H; [left; reflexivity|exact B]].
Qed.
Lemma sorted_map_rev (f : Qc -> Qc) l : (forall a b, a <= b -> f b <= f a) -> StronglySorted Qcle l -> StronglySorted Qcle (rev (map f l)).
Proof.
  intros M. induction 1 as [|a l S IH F]; cbn [map rev]; [constructor|]. apply sorted_app; [exact IH|repeat constructor|].
  intros x b X [<-|[]]. apply in_rev in X. apply in_map_iff in X. destruct X as (y & <- & Y). apply M. rewrite Forall_forall in F. auto.
Qed.
Lemma nth_error_rev' {A} (l : list A) i : (i < length l)%nat -> nth_error (rev l) i = nth_error l (length l - 1 - i).
Proof.
  intros H. destruct l as [|d l]; [cbn in H; lia|]. rewrite (nth_error_nth' (rev (d :: l)) d) by (rewrite rev_length; exact H).
  rewrite rev_nth by exact H. rewrite (nth_error_nth' (d :: l) d) by lia. f_equal. f_equal. lia.
Qed.
Lemma is_median_affine a b l m : a <> 0 -> is_median l m -> is_median (map (affine a b) l) (affine a b m).
Proof.
  intros N (u & P & S & H).
  assert (LEN : length u = length l) by (symmetry; now apply Permutation_length).
  destruct (Qc_ltb 0 a) eqn:A; qc_bool.
  - exists (map (affine a b) u). split; [now apply Permutation_map|]. split.
    { apply sorted_map; [|exact S]. intros x y L. unfold affine. qcnra. }
    rewrite map_length. destruct H as [(k & L & E)|(k & x & y & L & X & Y & E)].
    + left. exists k. split; [exact L|]. now apply map_nth_error.
    + right. exists k, (affine a b x), (affine a b y). split; [exact L|].
      split; [now apply map_nth_error|]. split; [now apply map_nth_error|]. unfold affine.
      replace (a * m + b + (a * m + b)) with (a * (m + m) + b + b) by ring. rewrite E. ring.
  - exists (rev (map (affine a b) u)). split; [rewrite <- Permutation_rev; now apply Permutation_map|]. split.
    { apply sorted_map_rev; [|exact S]. intros x y L. unfold affine. qcnra. }
    rewrite map_length. destruct H as [(k & L & E)|(k & x & y & L & X & Y & E)].
    + left. exists k. split; [exact L|]. rewrite nth_error_rev' by (rewrite map_length; lia). rewrite map_length.
      replace (length u - 1 - k)%nat with k by lia. now apply map_nth_error.
    + right. exists k, (affine a b y), (affine a b x). split; [exact L|]. rewrite !nth_error_rev' by (rewrite map_length; lia). rewrite map_length.
      replace (length u - 1 - k)%nat with (Datatypes.S k) by lia. replace (length u - 1 - Datatypes.S k)%nat with k by lia.
      split; [now apply map_nth_error|]. split; [now apply map_nth_error|]. unfold affine.
      replace (a * m + b + (a * m + b)) with (a * (m + m) + b + b) by ring. rewrite E. ring.
Qed.
Lemma median_affine a b l : a <> 0 -> l <> [] -> median (map (affine a b) l) = affine a b (median l).
Proof.
  intros N L. apply median_is; [destruct l; [contradiction|discriminate]|]. apply is_median_affine; [exact N|]. now apply median_spec.
Qed.
Lemma abs_mul a x : Qc_abs (a * x) = Qc_abs a * Qc_abs x.
Proof.
  unfold Qc_abs. destruct (Qc_leb 0 a) eqn:A, (Qc_leb 0 x) eqn:X, (Qc_leb 0 (a * x)) eqn:P; qc_bool; try ring; try (exfalso; qcnra);
   try (assert (a * x = 0) by (apply Qcle_antisym; [qcnra|qcnra]); rewrite ?H; transitivity (- (a * x)); [rewrite H; ring|ring]).
Qed.
Lemma abs_nonneg x : 0 <= Qc_abs x.
Proof. unfold Qc_abs. destruct (Qc_leb 0 x) eqn:E; qc_bool; qclra. Qed.
Lemma abs_nz a : a <> 0 -> 0 < Qc_abs a.
Proof.
  intros N. unfold Qc_abs. destruct (Qc_leb 0 a) eqn:E; qc_bool; [|qclra].
  destruct (Qc_ltb 0 a) eqn:L; qc_bool; [exact L|]. destruct N. now apply Qcle_antisym.
Qed.
Lemma deviations_affine a b x : a <> 0 -> deviations (map (affine a b) x) = map (affine (Qc_abs a) 0) (deviations x).
Proof.
  intros N. destruct x as [|v x]; [reflexivity|]. set (l := v :: x) in *. unfold deviations. cbn zeta.
  rewrite (median_affine a b l N ltac:(discriminate)). rewrite !map_map. apply map_ext. intros w.
  replace (affine a b w - affine a b (median l)) with (a * (w - median l)) by (unfold affine; ring). rewrite abs_mul. unfold affine. ring.
Qed.
Lemma median_scale a l : a <> 0 -> l <> [] -> median (map (affine a 0) l) = a * median l.
Proof. intros N L. rewrite median_affine by assumption. unfold affine. ring. Qed.

Lemma existsb_eqb_in i l : existsb (Nat.eqb i) l = true <-> In i l.
Proof.
  rewrite existsb_exists. split; [intros (j & J & E); apply Nat.eqb_eq in E; now subst|]. intros H. exists i. split; [exact H|apply Nat.eqb_refl].
Qed.
Lemma nth_map_0 (f : Qc -> Qc) l i : (i < length l)%nat -> nth i (map f l) 0 = f (nth i l 0).
Proof. intros H. rewrite (nth_indep _ 0 (f 0)) by (rewrite map_length; exact H). apply map_nth. Qed.
Theorem outliers_affine : forall argsort x nsigma normal k a b, comparing argsort -> a <> 0 ->
  outliers argsort (map (affine a b) x) nsigma normal k = outliers argsort x nsigma normal k.
Proof.
  intros argsort x nsigma normal k a b C N. unfold outliers. rewrite (deviations_affine a b x N), map_length.
  pose proof (abs_nz a N) as P. set (c := Qc_abs a) in *. clearbody c.
  assert (CN : c <> 0) by (intros ->; qclra).
  destruct (negb (k =? 0)%Z).
  - f_equal. assert (E : argsort (map Qcopp (map (affine c 0) (deviations x))) = argsort (map Qcopp (deviations x))).
    { apply C; [now rewrite !map_length|]. rewrite !map_length. intros i j I J.
      rewrite !nth_map_0 by (rewrite ?map_length; assumption). unfold affine.
      generalize (nth i (deviations x) 0), (nth j (deviations x) 0). intros u v. split; intros L.
      - destruct (Qc_leb (- u) (- v)) eqn:E; qc_bool; [exact E|exfalso; qcnra].
      - qcnra. }
    rewrite E. reflexivity.
  - destruct x as [|v x]; [cbn; destruct normal; destruct (Qc_eqb _ 0); reflexivity|].
    set (d := deviations (v :: x)). assert (DN : d <> []) by discriminate.
    rewrite (median_scale c d CN DN).
    set (mad := if normal then normal_factor * median d else median d).
    replace (if normal then normal_factor * (c * median d) else c * median d) with (c * mad) by (unfold mad; destruct normal; ring).
    destruct (Qc_eqb mad 0) eqn:E; qc_bool.
    + rewrite E. replace (c * 0) with 0 by ring. assert (X : Qc_eqb 0 0 = true) by (now apply Qc_eqb_spec). rewrite X.
      rewrite map_map. reflexivity.
    + assert (X : Qc_eqb (c * mad) 0 = false).
      { apply Qc_eqb_false. intros Z. apply Qcmult_integral in Z. destruct Z; contradiction. }
      rewrite X, map_map. apply map_ext. intros w. f_equal. unfold affine. clearbody mad. field. split; assumption.
Qed.

(* exactly the far values *)
Lemma median_nonneg l : l <> [] -> Forall (fun v => 0 <= v) l -> 0 <= median l.
Proof.
  intros N F. destruct (median_spec l N) as (u & P & S & H).
  assert (G : forall k a, nth_error u k = Some a -> 0 <= a).
  { intros k a A. rewrite Forall_forall in F. apply F. apply (Permutation_in _ (Permutation_sym P)). eapply nth_error_In; eauto. }
  destruct H as [(k & _ & A)|(k & a & b & _ & A & B & E)]; [eauto|]. apply G in A, B. generalize dependent (median l). intros; qclra.
Qed.
Lemma deviations_nonneg x : Forall (fun v => 0 <= v) (deviations x).
Proof. apply Forall_map. apply Forall_forall. intros. apply abs_nonneg. Qed.
Lemma factor_ge normal : 1 <= factor normal.
Proof. destruct normal; vm_compute; discriminate. Qed.
Theorem outliers_far : forall argsort x nsigma normal m mad i v b, is_median x m ->
  is_median (map (fun v => Qc_abs (v - m)) x) mad -> mad <> 0 ->
  nth_error x i = Some v -> nth_error (outliers argsort x nsigma normal 0) i = Some b ->
  (b = true <-> nsigma * (factor normal * mad) < Qc_abs (v - m)).
Proof.
  intros argsort x nsigma normal m mad i v b M D N V B.
  assert (XN : x <> []) by (intros ->; destruct i; discriminate V).
  unfold outliers in B. cbn [Z.eqb negb] in B. unfold deviations in B. cbn zeta in B. rewrite (median_is x m XN M) in B.
  set (d := map (fun v => Qc_abs (v - m)) x) in *. assert (DN : d <> []) by (destruct x; [contradiction|discriminate]).
  rewrite (median_is d mad DN D) in B.
  assert (MP : 0 <= mad). { rewrite <- (median_is d mad DN D). apply median_nonneg; [exact DN|]. apply Forall_map, Forall_forall. intros; apply abs_nonneg. }
  replace (if normal then normal_factor * mad else mad) with (factor normal * mad) in B by (unfold factor; fold normal_factor; destruct normal; ring).
  pose proof (factor_ge normal) as FG. set (f := factor normal) in *. clearbody f.
  assert (FP : 0 < f * mad).
  { destruct (Qc_ltb 0 mad) eqn:L; qc_bool; [qcnra|]. destruct N. now apply Qcle_antisym. }
  set (t := f * mad) in *. clearbody t. assert (TN : t <> 0) by (intros ->; qclra).
  assert (TE : Qc_eqb t 0 = false) by (now apply Qc_eqb_false). rewrite TE in B.
  assert (DV : nth_error d i = Some (Qc_abs (v - m))) by (unfold d; now apply (map_nth_error (fun v => Qc_abs (v - m)))).
  rewrite (map_nth_error _ _ _ DV) in B. inversion B; subst b. rewrite Qc_ltb_lt.
  generalize (Qc_abs (v - m)). intros w. assert (W : w = w / t * t) by (field; exact TN). set (q := w / t) in *. clearbody q. subst w.
  split; intros L; [qcnra|]. destruct (Qc_ltb nsigma q) eqn:E; qc_bool; [exact E|exfalso; qcnra].
Qed.
Theorem outliers_length : forall argsort x nsigma normal k, length (outliers argsort x nsigma normal k) = length x.
Proof.
  intros. unfold outliers, deviations. destruct (negb (k =? 0)%Z); [now rewrite map_length, seq_length|].
  destruct (Qc_eqb _ 0); now rewrite ?map_length.
Qed.
(* when at least half of the values coincide with the median, nothing is flagged *)
Theorem outliers_none : forall argsort x nsigma normal m, x <> [] -> is_median x m ->
  is_median (map (fun v => Qc_abs (v - m)) x) 0 -> outliers argsort x nsigma normal 0 = map (fun _ => false) x.
Proof.
  intros argsort x nsigma normal m XN M D. unfold outliers. cbn [Z.eqb negb]. unfold deviations. cbn zeta. rewrite (median_is x m XN M).
  rewrite (median_is _ 0 (fun E => XN (map_eq_nil _ _ E)) D).
  replace (if normal then normal_factor * 0 else 0) with 0 by (destruct normal; ring). reflexivity.
Qed.
(* at most half of the values is flagged when the cut-off is at least one deviation *)
Lemma count_perm p l u : Permutation l u -> count p l = count p u.
Proof.
  unfold count. induction 1; cbn [filter]; try lia; [destruct (p x); cbn [length]; lia|].
  destruct (p x), (p y); cbn [length]; lia.
Qed.
Lemma count_le p l : (count p l <= length l)%nat.
Proof. unfold count. induction l as [|a l IH]; cbn [filter]; [lia|]. destruct (p a); cbn [length]; lia. Qed.
Lemma count_app p l u : count p (l ++ u) = (count p l + count p u)%nat.
Proof. unfold count. rewrite filter_app, app_length. reflexivity. Qed.
Lemma count_zero p l : Forall (fun a => p a = false) l -> count p l = 0%nat.
Proof. unfold count. induction 1; cbn [filter]; [reflexivity|]. now rewrite H. Qed.
Lemma count_above l m : is_median l m -> (count (Qc_ltb m) l + count (Qc_ltb m) l <= length l)%nat.
Proof.
  intros (u & P & S & H). rewrite (count_perm _ _ _ P). assert (LEN : length l = length u) by (now apply Permutation_length).
  assert (K : exists k c, nth_error u k = Some c /\ c <= m /\ (length l <= k + 1 + (k + 1))%nat).
  { destruct H as [(k & L & A)|(k & a & b & L & A & B & E)]; [exists k, m; split; [exact A|split; [apply Qcle_refl|lia]]|].
    exists k, a. split; [exact A|]. split; [|lia].
    assert (a <= b) by (apply (sorted_nth u S k (Datatypes.S k)); auto). qclra. }
  destruct K as (k & c & A & C & L).
  rewrite <- (firstn_skipn (Datatypes.S k) u), count_app, (count_zero _ (firstn (Datatypes.S k) u)).
  - pose proof (count_le (Qc_ltb m) (skipn (Datatypes.S k) u)). rewrite skipn_length in H0.
    assert (k < length u)%nat by (apply nth_error_Some; congruence). lia.
  - apply Forall_forall. intros a I. apply Qc_ltb_ge. apply In_nth_error in I. destruct I as [j I].
    assert (J : (j < Datatypes.S k)%nat). { assert (j < length (firstn (Datatypes.S k) u))%nat by (apply nth_error_Some; congruence). rewrite firstn_length in H0. lia. }
    assert (I' : nth_error u j = Some a).
    { rewrite <- (firstn_skipn (Datatypes.S k) u), nth_error_app1; [exact I|]. apply nth_error_Some. congruence. }
    assert (a <= c) by (apply (sorted_nth u S j k); auto; lia). qclra.
Qed.
Lemma flagged_map (p : Qc -> bool) l : flagged (map p l) = count p l.
Proof. unfold flagged, count. induction l as [|a l IH]; cbn [map filter]; [reflexivity|]. destruct (p a); cbn [length]; lia. Qed.
Lemma count_impl (p q : Qc -> bool) l : Forall (fun a => p a = true -> q a = true) l -> (count p l <= count q l)%nat.
Proof.
  unfold count. induction 1; cbn [filter]; [lia|]. destruct (p x) eqn:E; [rewrite H by reflexivity|destruct (q x)]; cbn [length]; lia.
Qed.
Theorem outliers_half : forall argsort x nsigma normal, 1 <= nsigma ->
  let n := flagged (outliers argsort x nsigma normal 0) in (n + n <= length x)%nat.
Proof.
  intros argsort x nsigma normal NS. destruct x as [|v x]; [unfold outliers; cbn; destruct normal; destruct (Qc_eqb _ 0); cbn; lia|].
  set (l := v :: x). unfold outliers. cbn [Z.eqb negb]. set (d := deviations l).
  assert (DL : length d = length l) by (unfold d, deviations; apply map_length).
  assert (DN : d <> []) by discriminate.
  destruct (Qc_eqb _ 0) eqn:E; cbn zeta.
  { rewrite flagged_map, count_zero; [lia|]. apply Forall_forall. reflexivity. }
  rewrite flagged_map. rewrite <- DL. pose proof (count_above d (median d) (median_spec d DN)) as H.
  match goal with |- (count ?p d + _ <= _)%nat => assert (C : (count p d <= count (Qc_ltb (median d)) d)%nat) end; [|lia].
  apply count_impl. apply Forall_forall. intros a _ L. qc_bool. apply Qc_ltb_lt.
  assert (MP : 0 <= median d) by (apply median_nonneg; [exact DN|apply deviations_nonneg]).
  pose proof (factor_ge normal) as FG.
  replace (if normal then normal_factor * median d else median d) with (factor normal * median d) in E, L by (unfold factor; fold normal_factor; destruct normal; ring).
  set (f := factor normal) in *. set (m := median d) in *. clearbody f m.
  assert (FP : 0 < f * m). { destruct (Qc_ltb 0 (f * m)) eqn:X; qc_bool; [exact X|]. destruct E. apply Qcle_antisym; [exact X|qcnra]. }
  set (t := f * m) in *. assert (T : m <= t) by (unfold t; qcnra). clearbody t.
  assert (W : a = a / t * t) by (field; exact E). set (q := a / t) in *. clearbody q. subst a. qcnra.
Qed.

(* a fixed number of outliers *)
Lemma py_first_split (k : Z) (l : list nat) : exists r, l = py_first k l ++ r /\ length (py_first k l) = taken k (length l).
Proof.
  unfold py_first, taken. destruct (Z.ltb_spec k 0).
  - exists (skipn (Z.to_nat (Z.of_nat (length l) + k)) l). rewrite firstn_skipn, firstn_length. split; [reflexivity|lia].
  - exists (skipn (Z.to_nat k) l). rewrite firstn_skipn, firstn_length. split; [reflexivity|lia].
Qed.
Lemma flagged_in (first : list nat) n : NoDup first -> (forall i, In i first -> (i < n)%nat) ->
  flagged (map (fun i => existsb (Nat.eqb i) first) (seq 0 n)) = length first.
Proof.
  intros D B. unfold flagged.
  assert (E : forall l : list nat, length (filter (fun b => b) (map (fun i => existsb (Nat.eqb i) first) l)) = length (filter (fun i => existsb (Nat.eqb i) first) l)).
  { induction l as [|a l IH]; cbn [map filter]; [reflexivity|]. destruct (existsb (Nat.eqb a) first); cbn [length]; lia. }
  rewrite E. apply Permutation_length. apply NoDup_Permutation; [apply NoDup_filter, seq_NoDup|exact D|].
  intros i. rewrite filter_In, existsb_eqb_in, in_seq. split; [tauto|]. intros I. split; [|exact I]. apply B in I. lia.
Qed.
Theorem outliers_fixed : forall argsort x nsigma normal k, sorts argsort -> k <> 0%Z ->
  flagged (outliers argsort x nsigma normal k) = taken k (length x) /\
  forall m i j v w, is_median x m -> nth_error x i = Some v -> nth_error x j = Some w ->
    nth_error (outliers argsort x nsigma normal k) i = Some true -> nth_error (outliers argsort x nsigma normal k) j = Some false ->
    Qc_abs (w - m) <= Qc_abs (v - m).
Proof.
  intros argsort x nsigma normal k S K. set (d := deviations x). destruct (S (map Qcopp d)) as [P O].
  assert (DL : length d = length x) by (unfold d, deviations; apply map_length). rewrite map_length, DL in P.
  set (s := argsort (map Qcopp d)) in *.
  assert (SL : length s = length x) by (rewrite (Permutation_length P); apply seq_length).
  destruct (py_first_split k s) as (r & E & L).
  assert (OUT : outliers argsort x nsigma normal k = map (fun i => existsb (Nat.eqb i) (py_first k s)) (seq 0 (length x))).
  { unfold outliers. fold d. fold s. apply Z.eqb_neq in K. rewrite K. reflexivity. }
  rewrite OUT. assert (D : NoDup s) by (apply (Permutation_NoDup (Permutation_sym P)); apply seq_NoDup).
  set (first := py_first k s) in *. clearbody first.
  assert (IB : forall i, In i s -> (i < length x)%nat) by (intros i I; apply (Permutation_in _ P) in I; apply in_seq in I; lia).
  split.
  - rewrite flagged_in; [rewrite L, SL; reflexivity| |].
    + rewrite E in D. clear - D. induction first as [|a f IH]; [constructor|]. inversion D; subst. constructor; [|auto]. intros I. apply H1. apply in_or_app; auto.
    + intros i I. apply IB. rewrite E. apply in_or_app; auto.
  - intros m i j v w M V W I J.
    assert (XN : x <> []) by (intros ->; destruct i; discriminate V).
    assert (IL : (i < length x)%nat) by (apply nth_error_Some; congruence). assert (JL : (j < length x)%nat) by (apply nth_error_Some; congruence).
    assert (SI : forall q, (q < length x)%nat -> nth_error (seq 0 (length x)) q = Some q).
    { intros q Q. rewrite (nth_error_nth' _ 0%nat) by (rewrite seq_length; exact Q). rewrite seq_nth by exact Q. reflexivity. }
    rewrite (map_nth_error _ _ _ (SI i IL)) in I. rewrite (map_nth_error _ _ _ (SI j JL)) in J.
    assert (I' : In i first). { apply existsb_eqb_in. congruence. }
    assert (J' : ~ In j first). { intros X. apply existsb_eqb_in in X. congruence. }
    assert (JR : In j r).
    { assert (JS : In j s) by (apply (Permutation_in _ (Permutation_sym P)); apply in_seq; lia). rewrite E in JS. apply in_app_or in JS. tauto. }
    rewrite E in O. assert (LE : nth i (map Qcopp d) 0 <= nth j (map Qcopp d) 0).
    { clear - O I' JR. induction first as [|a f IH]; [destruct I'|]. inversion O; subst. destruct I' as [->|I']; [|auto].
      rewrite Forall_forall in H2. apply H2. apply in_or_app; auto. }
    rewrite !nth_map_0 in LE by (rewrite DL; assumption).
    assert (DE : forall q u, nth_error x q = Some u -> nth q d 0 = Qc_abs (u - m)).
    { intros q u U. unfold d, deviations. cbn zeta. rewrite (median_is x m XN M).
      apply (map_nth_error (fun v => Qc_abs (v - m))) in U. exact (nth_error_nth _ _ 0 U). }
    rewrite (DE _ _ V), (DE _ _ W) in LE. qclra.
Qed.
Theorem outliers_fixed_cutoff : forall argsort x nsigma normal nsigma' normal' k, k <> 0%Z ->
  outliers argsort x nsigma normal k = outliers argsort x nsigma' normal' k.
Proof. intros. unfold outliers. apply Z.eqb_neq in H. rewrite H. reflexivity. Qed.

(* a comparing sort exists *)
Lemma place_perm l i u : Permutation (i :: u) (place l i u).
Proof.
  induction u as [|j u IH]; cbn [place]; [reflexivity|]. destruct (Qc_leb _ _); [reflexivity|].
  rewrite perm_swap. now apply perm_skip.
Qed.
Lemma place_sorted l i u : StronglySorted (fun i j => nth i l 0 <= nth j l 0) u -> StronglySorted (fun i j => nth i l 0 <= nth j l 0) (place l i u).
Proof.
  induction 1 as [|j u S IH F]; cbn [place]; [repeat constructor|]. destruct (Qc_leb _ _) eqn:E; qc_bool.
  - constructor; [constructor; assumption|]. constructor; [exact E|]. eapply Forall_impl; [|exact F]. cbn. intros k K.
    eapply Qcle_trans; eauto.
  - constructor; [exact IH|]. rewrite <- place_perm. constructor; [now apply Qclt_le_weak|exact F].
Qed.
Theorem stable_sorts : sorts stable_argsort.
Proof.
  intros l. unfold stable_argsort. generalize (seq 0 (length l)). intros q. induction q as [|i q IH]; cbn [fold_right]; [split; constructor|].
  destruct IH as [A B]. split; [rewrite <- place_perm; now apply perm_skip|now apply place_sorted].
Qed.
Theorem stable_comparing : comparing stable_argsort.
Proof.
  intros l l' E C. unfold stable_argsort. rewrite <- E.
  assert (F : Forall (fun i => i < length l)%nat (seq 0 (length l))) by (apply Forall_forall; intros i I; apply in_seq in I; lia).
  revert F. generalize (seq 0 (length l)). intros q F. induction F as [|i q I F IH]; cbn [fold_right]; [reflexivity|]. rewrite <- IH. clear IH.
  assert (G : Forall (fun i => i < length l)%nat (fold_right (place l) [] q)).
  { clear - F. induction F as [|j q J F IH]; cbn [fold_right]; [constructor|]. rewrite <- place_perm. constructor; assumption. }
  induction G as [|j u J G IH]; cbn [place]; [reflexivity|].
  assert (B : Qc_leb (nth i l 0) (nth j l 0) = Qc_leb (nth i l' 0) (nth j l' 0)).
  { specialize (C i j I J). destruct (Qc_leb (nth i l 0) _) eqn:X, (Qc_leb (nth i l' 0) _) eqn:Y; try reflexivity; qc_bool; exfalso.
    - apply C in X. qclra.
    - apply C in Y. qclra. }
  rewrite B, IH. reflexivity.
Qed.
