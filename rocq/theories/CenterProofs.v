From Verif Require Import CenterModel CenterSpec.
From Coq Require Import Lia.
Local Open Scope Qc_scope.

(* ---- the greatest ---- *)
Definition good (p : list datum) (b : option (nat * Qc)) : Prop := match b with None => no_number p | Some (i, m) => first_greatest p i m end.
Lemma nth_error_snoc {T} (p : list T) v j w : nth_error (p ++ [v]) j = Some w -> nth_error p j = Some w \/ j = length p /\ w = v.
Proof.
  intros H. destruct (Nat.lt_ge_cases j (length p)) as [L|L]; [left; now rewrite nth_error_app1 in H|]. rewrite nth_error_app2 in H by exact L. destruct (j - length p)%nat as [|k] eqn:E; cbn in H; [right; split; [lia|congruence]|destruct k; discriminate].
Qed.
Lemma nth_error_keep {T} (p : list T) v j w : nth_error p j = Some w -> nth_error (p ++ [v]) j = Some w.
Proof. intros H. rewrite nth_error_app1; [exact H|]. apply nth_error_Some. congruence. Qed.
Lemma good_nan p b : good p b -> good (p ++ [None]) b.
Proof.
  destruct b as [[i m]|]; cbn [good].
  - intros (A & B & C). split; [now apply nth_error_keep|]. split.
    + intros j v H. apply nth_error_snoc in H as [H|[_ H]]; [eauto|discriminate].
    + intros j v J H. apply nth_error_snoc in H as [H|[_ H]]; [eauto|discriminate].
  - intros H v I. apply in_app_iff in I as [I|[<-|[]]]; [now apply H|reflexivity].
Qed.
Lemma first_index p i m : first_greatest p i m -> (i < length p)%nat.
Proof. intros (A & _). apply nth_error_Some. congruence. Qed.
Lemma good_num p b v : good p b -> good (p ++ [Some v]) (match b with Some (_, m) => if Qc_ltb m v then Some (length p, v) else b | None => Some (length p, v) end).
Proof.
  assert (NE : nth_error (p ++ [Some v]) (length p) = Some (Some v)) by (rewrite nth_error_app2, Nat.sub_diag by lia; reflexivity).
  destruct b as [[i m]|]; cbn [good].
  - intros H. pose proof (first_index _ _ _ H) as I. destruct H as (A & B & C). destruct (Qc_ltb m v) eqn:T; qc_bool; (split; [|split]).
    + exact NE.
    + intros j w J. apply nth_error_snoc in J as [J|[_ J]]; [apply B in J; qclra|]. assert (w = v) by congruence. subst w. apply Qcle_refl.
    + intros j w L J. apply nth_error_snoc in J as [J|[J _]]; [apply B in J; qclra|lia].
    + now apply nth_error_keep.
    + intros j w J. apply nth_error_snoc in J as [J|[_ J]]; [eauto|]. assert (w = v) by congruence. now subst w.
    + intros j w L J. apply nth_error_snoc in J as [J|[J _]]; [eauto|lia].
  - intros H. assert (Z : forall j w, nth_error p j = Some (Some w) -> False) by (intros j w J; apply nth_error_In, H in J; discriminate). split; [exact NE|]. split.
    + intros j w J. apply nth_error_snoc in J as [J|[_ J]]; [now apply Z in J|]. assert (w = v) by congruence. subst w. apply Qcle_refl.
    + intros j w L J. apply nth_error_snoc in J as [J|[J _]]; [now apply Z in J|lia].
Qed.
Lemma greatest_from l : forall p b, good p b -> good (p ++ l) (nanargmax_from (length p) b l).
Proof.
  induction l as [|[v|] l IH]; intros p b G; cbn [nanargmax_from]; [now rewrite app_nil_r| |].
  - specialize (IH (p ++ [Some v]) _ (good_num p b v G)). rewrite app_length, Nat.add_1_r, <- app_assoc in IH. exact IH.
  - specialize (IH (p ++ [None]) _ (good_nan p b G)). rewrite app_length, Nat.add_1_r, <- app_assoc in IH. exact IH.
Qed.
Lemma nanmax_spec l : match nanmax l with Ok (i, m) => first_greatest l i m | Err e => e = ValueError /\ no_number l end.
Proof.
  unfold nanmax. assert (G : good [] None) by (intros v []). apply (greatest_from l) in G. cbn [app length] in G. destruct (nanargmax_from 0 None l) as [[i m]|]; [exact G|]. split; [reflexivity|exact G].
Qed.
Lemma first_unique l i m j k : first_greatest l i m -> first_greatest l j k -> i = j /\ m = k.
Proof.
  intros (A & B & C) (A' & B' & C'). assert (E : m = k) by (apply Qcle_antisym; eauto). subst k. split; [|reflexivity]. destruct (Nat.lt_trichotomy i j) as [L|[L|L]]; [|exact L|].
  - specialize (C' i m L A). exfalso. now apply (Qclt_not_eq m m).
  - specialize (C j m L A'). exfalso. now apply (Qclt_not_eq m m).
Qed.
Lemma nanmax_ok l i m : first_greatest l i m -> nanmax l = Ok (i, m).
Proof.
  intros H. pose proof (nanmax_spec l) as S. destruct (nanmax l) as [[j k]|e].
  - destruct (first_unique _ _ _ _ _ H S) as [-> ->]. reflexivity.
  - destruct S as [_ S]. destruct H as (A & _). apply nth_error_In, S in A. discriminate.
Qed.
Theorem fmax_spec : forall l, (forall i, fmax1 l = Ok i <-> exists m, first_greatest l i m) /\ (fmax1 l = Err ValueError <-> no_number l) /\ (fmin1 l = Err ValueError <-> no_number l)
  /\ (forall i, fmin1 l = Ok i <-> exists m, nth_error l i = Some (Some m) /\ (forall j v, nth_error l j = Some (Some v) -> m <= v) /\ (forall j v, (j < i)%nat -> nth_error l j = Some (Some v) -> m < v)).
Proof.
  assert (MX : forall l, (forall i, fmax1 l = Ok i <-> exists m, first_greatest l i m) /\ (fmax1 l = Err ValueError <-> no_number l)).
  { intros l. unfold fmax1. split.
    - intros i. split; [|intros [m H]; now rewrite (nanmax_ok _ _ _ H)]. pose proof (nanmax_spec l) as S. destruct (nanmax l) as [[j k]|e]; cbn [bind]; [|discriminate]. intros [= ->]. now exists k.
    - pose proof (nanmax_spec l) as S. destruct (nanmax l) as [[j k]|e]; cbn [bind]; [|destruct S as [-> S]; split; auto]. split; [discriminate|]. intros H. destruct S as (A & _). apply nth_error_In, H in A. discriminate. }
  intros l. destruct (MX l) as [M1 M2]. split; [exact M1|]. split; [exact M2|]. destruct (MX (map opp_datum l)) as [N1 N2]. split.
  - change (fmin1 l) with (fmax1 (map opp_datum l)). rewrite N2. split; intros H v I.
    + apply (in_map opp_datum) in I. apply H in I. destruct v; [discriminate|reflexivity].
    + apply in_map_iff in I as (w & <- & I). apply H in I. now subst w.
  - intros i. change (fmin1 l) with (fmax1 (map opp_datum l)). rewrite N1. assert (OP : forall j v, nth_error (map opp_datum l) j = Some (Some v) <-> nth_error l j = Some (Some (- v))).
    { intros j v. rewrite nth_error_map. destruct (nth_error l j) as [[w|]|]; cbn; split; intros E; try discriminate.
      - assert (X : - w = v) by congruence. subst v. do 2 f_equal. ring.
      - assert (X : w = - v) by congruence. subst w. do 2 f_equal. ring. }
    split; intros [m (A & B & C)].
    + exists (- m). split; [now apply OP|]. split; intros j v; intros; assert (V : nth_error (map opp_datum l) j = Some (Some (- v))) by (apply OP; rewrite Qcopp_involutive; assumption).
      * apply B in V. qclra.
      * apply C in V; [qclra|assumption].
    + exists (- m). split; [apply OP; now rewrite Qcopp_involutive|]. split; intros j v.
      * intros V. apply OP, B in V. qclra.
      * intros J V. apply OP, C in V; [qclra|assumption].
Qed.

(* ---- the window in one dimension ---- *)
Lemma exceeds_high (l : list datum) t i : exceeds (nth i l None) t = true <-> high l t i.
Proof.
  unfold high. split.
  - intros H. destruct (nth_error l i) as [v|] eqn:E; [|apply nth_error_None in E; rewrite nth_overflow in H by exact E; discriminate]. rewrite (nth_error_nth _ _ _ E) in H. destruct v as [v|]; [|discriminate]. exists v. split; [reflexivity|]. cbn in H. now qc_bool.
  - intros (v & E & T). rewrite (nth_error_nth _ _ _ E). cbn. now apply Qc_ltb_lt.
Qed.
Lemma grow1_reach l t s fuel : forall k, (k <= s)%nat -> (s + k < length l)%nat -> (forall j, (j < k)%nat -> high l t (s - j) /\ high l t (s + j)) -> (s < k + fuel)%nat ->
  exists k', grow1 fuel l t (s - k) (s + k) = (s - k', s + k')%nat /\ reach l t s k'.
Proof.
  induction fuel as [|f IH]; intros k K L H F; [lia|]. cbn [grow1].
  destruct (exceeds (nth (s - k) l None) t && exceeds (nth (s + k) l None) t) eqn:X.
  - apply andb_prop in X as [X1 X2]. apply exceeds_high in X1. apply exceeds_high in X2. destruct (s - k)%nat as [|a] eqn:A.
    + exists k. rewrite A. split; [reflexivity|]. split; [exact K|]. split; [exact L|]. split; [exact H|]. left. lia.
    + destruct (Nat.leb_spec (length l) (S (s + k))) as [B|B].
      * exists k. rewrite A. split; [reflexivity|]. split; [exact K|]. split; [exact L|]. split; [exact H|]. right. left. lia.
      * destruct (IH (S k)) as (k' & E & R); [lia|lia| |lia|].
        { intros j J. destruct (Nat.eq_dec j k) as [->|]; [|apply H; lia]. split; [now rewrite A|exact X2]. }
        exists k'. split; [|exact R]. replace (s - S k)%nat with a in E by lia. replace (s + S k)%nat with (S (s + k)) in E by lia. exact E.
  - exists k. split; [reflexivity|]. split; [exact K|]. split; [exact L|]. split; [exact H|]. right. right. apply andb_false_iff in X as [X|X]; [left|right]; intros Y; apply exceeds_high in Y; rewrite Y in X; discriminate.
Qed.
Theorem optimize_spec : forall data proc thr s m, first_greatest data s m -> exists k, reach data (thr * m) s k
  /\ foptimize1 data proc thr = Ok (if (k =? 0)%nat then Some (of_nat s) else nadd (proc (slice data (s - k) (S (s + k)))) (Some (of_nat (s - k)))).
Proof.
  intros data proc thr s m G. pose proof (first_index _ _ _ G) as I. unfold foptimize1. rewrite (nanmax_ok _ _ _ G). cbn [bind].
  destruct (grow1_reach data (thr * m) s (length data) 0) as (k & E & R); [lia|lia|intros; lia|lia|]. rewrite Nat.sub_0_r, Nat.add_0_r in E. rewrite E. exists k. split; [exact R|]. destruct R as (K & _). destruct (Nat.eqb_spec k 0) as [->|Z].
  - rewrite Nat.sub_0_r, Nat.add_0_r, Nat.eqb_refl. reflexivity.
  - destruct (Nat.eqb_spec (s - k) (s + k)); [lia|]. reflexivity.
Qed.
Theorem optimize_error : forall data proc thr, no_number data -> foptimize1 data proc thr = Err ValueError.
Proof.
  intros data proc thr H. unfold foptimize1. pose proof (nanmax_spec data) as S. destruct (nanmax data) as [[i m]|e]; [|destruct S as [-> _]; reflexivity]. destruct S as (A & _). apply nth_error_In, H in A. discriminate.
Qed.
(* sums *)
Lemma of_nat_S n : of_nat (S n) = of_nat n + 1. Proof. unfold of_nat. rewrite Nat2Z.inj_succ. unfold Z.succ. rewrite Qc_of_Z_plus. reflexivity. Qed.
Lemma of_nat_plus a b : of_nat (a + b) = of_nat a + of_nat b. Proof. unfold of_nat. now rewrite Nat2Z.inj_add, Qc_of_Z_plus. Qed.
Lemma of_nat_minus a b : (b <= a)%nat -> of_nat (a - b) = of_nat a - of_nat b. Proof. intros H. replace a with (a - b + b)%nat at 2 by lia. rewrite of_nat_plus. ring. Qed.
Lemma nsum_numbers w : forall i, nsum (map Some w) = Some (mass one w i).
Proof. induction w as [|v w IH]; intros i; [reflexivity|]. cbn [map nsum fold_right mass]. fold (nsum (map Some w)). rewrite (IH (S i)). cbn [nadd]. unfold one. f_equal. ring. Qed.
Lemma nsum_moments w : forall i, nsum (map (fun p => nscale (of_nat (fst p)) (snd p)) (combine (seq i (length w)) (map Some w))) = Some (mass of_nat w i).
Proof.
  induction w as [|v w IH]; intros i; [reflexivity|]. cbn [length seq map combine nsum fold_right mass fst snd nscale option_map]. match goal with |- nadd _ ?x = _ => change x with (nsum (map (fun p => nscale (of_nat (fst p)) (snd p)) (combine (seq (S i) (length w)) (map Some w)))) end. rewrite IH. reflexivity.
Qed.
Lemma mass_one w i j : mass one w i = mass one w j. Proof. revert i j. induction w as [|v w IH]; intros i j; [reflexivity|]. cbn [mass]. rewrite (IH (S i) (S j)). reflexivity. Qed.
Lemma mass_shift w : forall i a, mass of_nat w (a + i) = mass of_nat w i + of_nat a * mass one w 0.
Proof. induction w as [|v w IH]; intros i a; cbn [mass]; [ring|]. rewrite (mass_one w 1 0). replace (S (a + i)) with (a + S i)%nat by lia. rewrite IH, of_nat_plus. unfold one. ring. Qed.
Lemma centroid_numbers w : mass one w 0 <> 0 -> centroid1 (map Some w) = Some (mass of_nat w 0 / mass one w 0).
Proof. intros H. unfold centroid1. rewrite map_length, nsum_moments, (nsum_numbers w 0). cbn [ndiv]. apply Qc_eqb_false in H. now rewrite H. Qed.
Theorem centroid_spec : forall data s m, first_greatest data s m -> exists k, reach data (Q2Qc (9 # 10) * m) s k
  /\ (k = 0%nat -> fcentroid1 data = Ok (Some (of_nat s)))
  /\ (forall w, (0 < k)%nat -> numbers data (s - k) (S (s + k)) w -> mass one w 0 <> 0 -> fcentroid1 data = Ok (Some (mass of_nat w (s - k) / mass one w 0))).
Proof.
  intros data s m G. destruct (optimize_spec data centroid1 (Q2Qc (9 # 10)) s m G) as (k & R & E). exists k. split; [exact R|]. unfold fcentroid1. rewrite E. split; [now intros ->|].
  intros w K N Z. destruct (Nat.eqb_spec k 0); [lia|]. unfold slice. unfold numbers in N. rewrite <- N, centroid_numbers by exact Z. cbn [nadd]. do 2 f_equal. replace (s - k)%nat with (s - k + 0)%nat at 2 by lia. rewrite mass_shift. field. exact Z.
Qed.
Lemma mass_between w : Forall (fun v => 0 <= v) w -> forall i, of_nat i * mass one w 0 <= mass of_nat w i /\ mass of_nat w i <= of_nat (i + length w - 1) * mass one w 0 /\ 0 <= mass one w 0.
Proof.
  induction 1 as [|v w V F IH]; intros i; [cbn [mass length]; split; [|split]; qclra|]. cbn [mass length]. rewrite (mass_one w 1 0). destruct (IH (S i)) as (A & B & C). replace (i + S (length w) - 1)%nat with (i + length w)%nat by lia. replace (S i + length w - 1)%nat with (i + length w)%nat in B by lia. unfold one at 1 3 5.
  rewrite of_nat_S in A. assert (P : of_nat i <= of_nat (i + length w)) by (unfold of_nat; apply Qc_of_Z_le; lia). generalize dependent (mass one w 0). generalize dependent (mass of_nat w (S i)). generalize dependent (of_nat (i + length w)). generalize (of_nat i). clear - V. intros a b P M s A C B. split; [|split]; qcnra.
Qed.
Theorem centroid_within : forall w a, Forall (fun v => 0 <= v) w -> mass one w 0 <> 0 -> of_nat a <= mass of_nat w a / mass one w 0 /\ mass of_nat w a / mass one w 0 <= of_nat (a + length w - 1).
Proof.
  intros w a F Z. destruct (mass_between w F a) as (A & B & C). assert (P : 0 < mass one w 0) by (apply Qcle_lt_or_eq in C as [C|C]; [exact C|now rewrite <- C in Z]). set (s := mass one w 0) in *. set (x := mass of_nat w a) in *. assert (E : x = x / s * s) by (field; exact Z). set (r := x / s) in *. clearbody r s x. subst x. generalize dependent (of_nat a). generalize dependent (of_nat (a + length w - 1)). clear - P. intros b B a A. split; qcnra.
Qed.
Lemma mass_snoc f w v i : mass f (w ++ [v]) i = mass f w i + f (i + length w)%nat * v.
Proof. revert i. induction w as [|u w IH]; intros i; cbn [app mass length]; [rewrite Nat.add_0_r; ring|]. rewrite IH. replace (S i + length w)%nat with (i + S (length w))%nat by lia. ring. Qed.
Lemma mass_rev w : forall a, mass of_nat (rev w) a + mass of_nat w a = ((1 + 1) * of_nat a + of_nat (length w) - 1) * mass one w 0.
Proof.
  induction w as [|v w IH]; intros a; [cbn; ring|]. cbn [rev mass length]. rewrite mass_snoc, rev_length, (mass_one w 1 0), of_nat_plus, of_nat_S. specialize (IH a). assert (S1 : mass of_nat w (S a) = mass of_nat w a + mass one w 0) by (replace (S a) with (1 + a)%nat by lia; rewrite mass_shift; unfold of_nat at 2; change (Qc_of_Z (Z.of_nat 1)) with 1; ring). rewrite S1. change (one 0) with 1.
  assert (X : mass of_nat (rev w) a = ((1 + 1) * of_nat a + of_nat (length w) - 1) * mass one w 0 - mass of_nat w a) by (rewrite <- IH; ring). rewrite X. ring.
Qed.
Theorem centroid_symmetric : forall w k s, w = rev w -> length w = S (k + k) -> (k <= s)%nat -> mass one w 0 <> 0 -> mass of_nat w (s - k) / mass one w 0 = of_nat s.
Proof.
  intros w k s R L K Z. pose proof (mass_rev w (s - k)) as H. rewrite <- R, L, of_nat_S, of_nat_plus, of_nat_minus in H by exact K. set (x := mass of_nat w (s - k)) in *. set (t := mass one w 0) in *. clearbody x t.
  assert (E : x = of_nat s * t) by (generalize dependent (of_nat s); generalize (of_nat k); intros; qcnra). rewrite E. field. exact Z.
Qed.

(* ---- two dimensions ---- *)
Lemma flat_length d : length (flat d) = (ny d * nx d)%nat. Proof. unfold flat. now rewrite map_length, seq_length. Qed.
Lemma flat_at d k (v : datum) : nth_error (flat d) k = Some v <-> (k < ny d * nx d)%nat /\ pix d (k / nx d) (k mod nx d) = v.
Proof.
  split.
  - intros H. assert (K : (k < ny d * nx d)%nat) by (rewrite <- flat_length; apply nth_error_Some; congruence). split; [exact K|]. unfold flat in H. rewrite nth_error_map in H. rewrite (nth_error_nth' (seq 0 (ny d * nx d)) 0%nat) in H by (now rewrite seq_length). rewrite seq_nth in H by exact K. cbn in H. congruence.
  - intros [K <-]. unfold flat. rewrite nth_error_map. rewrite (nth_error_nth' (seq 0 (ny d * nx d)) 0%nat) by (now rewrite seq_length). now rewrite seq_nth by exact K.
Qed.
Lemma in_flat d (v : datum) : In v (flat d) <-> exists i j, (i < ny d)%nat /\ (j < nx d)%nat /\ pix d i j = v.
Proof.
  split.
  - intros H. apply In_nth_error in H as (k & H). apply flat_at in H as [K E]. assert (X : nx d <> 0%nat) by nia. exists (k / nx d)%nat, (k mod nx d)%nat. split; [apply Nat.div_lt_upper_bound; nia|]. split; [now apply Nat.mod_upper_bound|exact E].
  - intros (i & j & I & J & E). apply (nth_error_In _ (i * nx d + j)). apply flat_at. split; [nia|]. rewrite Nat.div_add_l by lia. rewrite (Nat.div_small j) by exact J. rewrite Nat.add_0_r. rewrite Nat.add_comm, Nat.mod_add by lia. now rewrite Nat.mod_small.
Qed.
Theorem fmax2_spec : forall d y x, fmax2 d = Ok (y, x) -> (y < ny d)%nat /\ (x < nx d)%nat /\ exists m, pix d y x = Some m /\ forall i j v, (i < ny d)%nat -> (j < nx d)%nat -> pix d i j = Some v -> v <= m.
Proof.
  intros d y x H. unfold fmax2, fmax1 in H. pose proof (nanmax_spec (flat d)) as S. destruct (nanmax (flat d)) as [[k m]|e]; cbn [bind] in H; [|discriminate]. destruct S as (A & B & _). apply flat_at in A as [K A]. assert (X : nx d <> 0%nat) by nia. assert (y = k / nx d)%nat by congruence. assert (x = k mod nx d)%nat by congruence. subst y x.
  split; [apply Nat.div_lt_upper_bound; nia|]. split; [now apply Nat.mod_upper_bound|]. exists m. split; [exact A|]. intros i j v I J E. assert (F : In (Some v) (flat d)) by (apply in_flat; eauto). apply In_nth_error in F as (q & F). eauto.
Qed.
Theorem fmin2_spec : forall d y x, fmin2 d = Ok (y, x) -> (y < ny d)%nat /\ (x < nx d)%nat /\ exists m, pix d y x = Some m /\ forall i j v, (i < ny d)%nat -> (j < nx d)%nat -> pix d i j = Some v -> m <= v.
Proof.
  intros d y x H. unfold fmin2 in H. destruct (fmin1 (flat d)) as [k|e] eqn:F; cbn [bind] in H; [|discriminate]. apply (proj1 (proj2 (proj2 (proj2 (fmax_spec (flat d)))) k)) in F as (m & A & B & _). apply flat_at in A as [K A]. assert (X : nx d <> 0%nat) by nia. assert (y = k / nx d)%nat by congruence. assert (x = k mod nx d)%nat by congruence. subst y x.
  split; [apply Nat.div_lt_upper_bound; nia|]. split; [now apply Nat.mod_upper_bound|]. exists m. split; [exact A|]. intros i j v I J E. assert (F : In (Some v) (flat d)) by (apply in_flat; eauto). apply In_nth_error in F as (q & F). eauto.
Qed.
Theorem fmax2_error : forall d, (forall i j, (i < ny d)%nat -> (j < nx d)%nat -> pix d i j = None) -> fmax2 d = Err ValueError /\ fmin2 d = Err ValueError.
Proof.
  intros d H. assert (N : no_number (flat d)) by (intros v I; apply in_flat in I as (i & j & I & J & <-); now apply H). destruct (fmax_spec (flat d)) as (_ & A & B & _). unfold fmax2, fmin2. rewrite (proj2 A N), (proj2 B N). split; reflexivity.
Qed.
Lemma low_window d t y x off : (off <= y)%nat -> (off <= x)%nat -> existsb (fun v => falls_short v t) (flat (window d y x off)) = true <-> low_in d t y x off.
Proof.
  intros Y X. rewrite existsb_exists. split.
  - intros (v & I & F). apply in_flat in I as (i & j & I & J & E). cbn [window ny nx pix] in *. destruct v as [v|]; [|discriminate]. cbn in F. qc_bool. exists (y - off + i)%nat, (x - off + j)%nat, v. split; [lia|]. split; [lia|]. split; [exact E|exact F].
  - intros (i & j & v & I & J & E & F). exists (Some v). split; [|cbn; now apply Qc_ltb_lt]. apply in_flat. exists (i - (y - off))%nat, (j - (x - off))%nat. cbn [window ny nx pix]. split; [lia|]. split; [lia|]. rewrite <- E. f_equal; lia.
Qed.
Lemma grow2_reach d t y x fuel : forall off, inside d y x off -> (forall o, (o < off)%nat -> ~ low_in d t y x o) -> (ny d <= off + fuel)%nat -> reach2 d t y x (grow2 fuel d t y x off).
Proof.
  induction fuel as [|f IH]; intros off I H F; cbn [grow2]; [destruct I; lia|]. pose proof I as (I1 & I2 & I3 & I4). destruct (existsb _ _) eqn:E.
  - apply low_window in E; [|assumption|assumption]. split; [exact I|]. split; [exact H|]. now left.
  - assert (NL : ~ low_in d t y x off) by (intros L; apply low_window in L; [congruence|assumption|assumption]). destruct (_ || _) eqn:B.
    + split; [exact I|]. split; [exact H|]. right. intros (J1 & J2 & J3 & J4). rewrite !orb_true_iff in B. destruct B as [[[B|B]|B]|B]; [apply Nat.ltb_lt in B|apply Nat.ltb_lt in B|apply Nat.leb_le in B|apply Nat.leb_le in B]; lia.
    + rewrite !orb_false_iff in B. destruct B as [[[B1 B2] B3] B4]. apply Nat.ltb_ge in B1, B2. apply Nat.leb_gt in B3, B4. apply IH; [split; [lia|]; split; [lia|]; split; lia| |lia]. intros o O. destruct (Nat.eq_dec o off) as [->|]; [exact NL|apply H; lia].
Qed.
Lemma nadd_0 x : nadd (Some 0) x = x. Proof. destruct x; cbn; [|reflexivity]. apply (f_equal Some). ring. Qed.
Lemma nadd_assoc x y z : nadd (nadd x y) z = nadd x (nadd y z). Proof. destruct x, y, z; cbn; try reflexivity. apply (f_equal Some). ring. Qed.
Lemma nsum_app a b : nsum (a ++ b) = nadd (nsum a) (nsum b).
Proof. induction a as [|x a IH]; cbn [app nsum fold_right]; [now rewrite nadd_0|]. fold (nsum (a ++ b)) (nsum a). rewrite IH. now rewrite nadd_assoc. Qed.
Lemma nsum_row (g : nat -> Qc) w : nsum (map (fun j => Some (g j)) (seq 0 w)) = Some (sumn w g).
Proof. induction w as [|w IH]; [reflexivity|]. rewrite seq_S, map_app, nsum_app, IH. cbn. apply (f_equal Some). ring. Qed.
Lemma nsum_positions (g : nat -> nat -> Qc) h w : nsum (map (fun c => Some (g (fst c) (snd c))) (positions h w)) = Some (sumn h (fun i => sumn w (fun j => g i j))).
Proof.
  unfold positions. induction h as [|h IH]; [reflexivity|]. rewrite seq_S, flat_map_app, map_app, nsum_app, IH. cbn [flat_map plus]. rewrite app_nil_r, map_map. cbn [fst snd]. rewrite nsum_row. reflexivity.
Qed.
Lemma in_positions h w c : In c (positions h w) -> (fst c < h)%nat /\ (snd c < w)%nat.
Proof. unfold positions. rewrite in_flat_map. intros (i & I & H). apply in_map_iff in H as (j & <- & J). apply in_seq in I, J. cbn. lia. Qed.
Lemma sumn_ext n f g : (forall i, (i < n)%nat -> f i = g i) -> sumn n f = sumn n g.
Proof. intros H. induction n as [|n IH]; [reflexivity|]. cbn [sumn]. rewrite IH, H by auto. reflexivity. Qed.
Lemma sumn_lin n c f g : sumn n (fun i => c * f i + g i) = c * sumn n f + sumn n g.
Proof. induction n as [|n IH]; cbn [sumn]; [ring|]. rewrite IH. ring. Qed.
Lemma centroid2_window d y x off v : (off <= y)%nat -> (off <= x)%nat -> (forall i j, (y - off <= i <= y + off)%nat -> (x - off <= j <= x + off)%nat -> pix d i j = Some (v i j)) -> square_sum y x off v <> 0 ->
  centroid2 (window d y x off) = (Some (square_sum y x off (fun i j => of_nat j * v i j) / square_sum y x off v - of_nat (x - off)), Some (square_sum y x off (fun i j => of_nat i * v i j) / square_sum y x off v - of_nat (y - off))).
Proof.
  intros Y X P Z. unfold centroid2. cbn [window ny nx pix]. set (n := (off + off + 1)%nat).
  assert (E : forall f : nat * nat -> Qc, nsum (map (fun c => nscale (f c) (pix d (y - off + fst c) (x - off + snd c))) (positions n n)) = Some (sumn n (fun i => sumn n (fun j => f (i, j) * v (y - off + i)%nat (x - off + j)%nat)))).
  { intros f. rewrite <- nsum_positions. f_equal. apply map_ext_in. intros c C. apply in_positions in C as [C1 C2]. rewrite P by (unfold n in *; lia). destruct c. reflexivity. }
  assert (E1 : nsum (map (fun c => pix d (y - off + fst c) (x - off + snd c)) (positions n n)) = Some (square_sum y x off v)).
  { unfold square_sum. fold n. rewrite <- nsum_positions. f_equal. apply map_ext_in. intros c C. apply in_positions in C as [C1 C2]. now rewrite P by (unfold n in *; lia). }
  rewrite E1. rewrite (E (fun c => of_nat (snd c))), (E (fun c => of_nat (fst c))). cbn [ndiv fst snd]. pose proof Z as Z'. apply Qc_eqb_false in Z'. rewrite Z'.
  assert (X1 : square_sum y x off (fun i j => of_nat j * v i j) = of_nat (x - off) * square_sum y x off v + sumn n (fun i => sumn n (fun j => of_nat j * v (y - off + i)%nat (x - off + j)%nat))).
  { unfold square_sum. fold n. rewrite <- sumn_lin. apply sumn_ext. intros i _. rewrite <- sumn_lin. apply sumn_ext. intros j _. rewrite of_nat_plus. ring. }
  assert (Y1 : square_sum y x off (fun i j => of_nat i * v i j) = of_nat (y - off) * square_sum y x off v + sumn n (fun i => sumn n (fun j => of_nat i * v (y - off + i)%nat (x - off + j)%nat))).
  { unfold square_sum. fold n. rewrite <- sumn_lin. apply sumn_ext. intros i _. rewrite <- sumn_lin. apply sumn_ext. intros j _. rewrite of_nat_plus. ring. }
  rewrite X1, Y1. apply f_equal2; f_equal; field; exact Z.
Qed.
Theorem optimize2_spec : forall d proc thr y x, fmax2 d = Ok (y, x) -> exists m off, pix d y x = Some m /\ reach2 d (thr * m) y x off
  /\ foptimize2 d proc thr = Ok (if (off =? 0)%nat then (Some (of_nat y), Some (of_nat x)) else let p := proc (window d y x off) in
       (nadd (nadd (Some (of_nat y)) (fst p)) (Some (- of_nat off)), nadd (nadd (Some (of_nat x)) (snd p)) (Some (- of_nat off)))).
Proof.
  intros d proc thr y x H. destruct (fmax2_spec d y x H) as (Y & X & _). unfold foptimize2. pose proof H as H0. unfold fmax2, fmax1 in H. pose proof (nanmax_spec (flat d)) as S. destruct (nanmax (flat d)) as [[k m]|e]; cbn [bind] in H |- *; [|discriminate]. rewrite H0. cbn [bind]. destruct S as (A & _). apply flat_at in A as [K A]. assert (y = k / nx d)%nat by congruence. assert (x = k mod nx d)%nat by congruence. exists m, (grow2 (ny d) d (thr * m) y x 0). split; [congruence|]. split.
  - apply grow2_reach; [split; [lia|]; split; [lia|]; split; lia|intros; lia|lia].
  - destruct (grow2 (ny d) d (thr * m) y x 0 =? 0)%nat; [reflexivity|]. cbn [negb]. destruct (proc _) as [p0 p1]. reflexivity.
Qed.
Theorem centroid2_spec : forall d y x, fmax2 d = Ok (y, x) -> exists m off, pix d y x = Some m /\ reach2 d (Q2Qc (9 # 10) * m) y x off /\ (off = 0%nat -> fcentroid2 d = Ok (Some (of_nat y), Some (of_nat x)))
  /\ forall v, (0 < off)%nat -> (forall i j, (y - off <= i <= y + off)%nat -> (x - off <= j <= x + off)%nat -> pix d i j = Some (v i j)) -> square_sum y x off v <> 0 ->
     let row := square_sum y x off (fun i j => of_nat i * v i j) / square_sum y x off v in let column := square_sum y x off (fun i j => of_nat j * v i j) / square_sum y x off v in
     fcentroid2 d = Ok (Some (of_nat y + (column - of_nat x)), Some (of_nat x + (row - of_nat y))).
Proof.
  intros d y x H. destruct (optimize2_spec d centroid2 (Q2Qc (9 # 10)) y x H) as (m & off & M & R & E). exists m, off. split; [exact M|]. split; [exact R|]. unfold fcentroid2. rewrite E. split; [now intros ->|]. intros v O P Z. destruct (Nat.eqb_spec off 0); [lia|]. destruct R as ((R1 & R2 & _) & _). cbv zeta. rewrite (centroid2_window d y x off v R1 R2 P Z). cbn [fst snd nadd]. rewrite !of_nat_minus by assumption. apply (f_equal Ok). apply f_equal2; f_equal; ring.
Qed.
(* the axes are exchanged *)
Definition tilted : image := {| ny := 3; nx := 3; pix := fun i j => Some (if ((i =? 1) && (j =? 1))%nat then Q2Qc (10#1) else if (j =? 2)%nat then Q2Qc (99#10) else Q2Qc (91#10)) |}.
Theorem centroid2_axes : exists d v y x, (forall i j, pix d i j = Some (v i j)) /\ fmax2 d = Ok (1, 1)%nat /\ fcentroid2 d = Ok (Some y, Some x)
  /\ square_sum 1 1 1 (fun i j => of_nat i * v i j) / square_sum 1 1 1 v = 1 /\ square_sum 1 1 1 (fun i j => of_nat j * v i j) / square_sum 1 1 1 v <> 1 /\ y <> 1 /\ x = 1.
Proof.
  exists tilted, (fun i j => if ((i =? 1) && (j =? 1))%nat then Q2Qc (10#1) else if (j =? 2)%nat then Q2Qc (99#10) else Q2Qc (91#10)). eexists _, _. split; [reflexivity|]. split; [vm_compute; reflexivity|]. split; [vm_compute; reflexivity|]. split; [apply Qc_is_canon; vm_compute; reflexivity|]. split; [vm_compute; discriminate|]. split; [vm_compute; discriminate|apply Qc_is_canon; vm_compute; reflexivity].
Qed.
