(* Proofs about axes: C35, C36, C37 and the point-preserving simplification. *)
From Coq Require Import Qround Sorting.
From Verif Require Import Base BaseProofs QcTac ZList ZListProofs AxisModel AxisSpec.
Local Open Scope Qc_scope.

Lemma plen_arange n : (0 <= n)%Z -> plen (arange n) = n.
Proof. intros. unfold plen, arange. rewrite map_length, seq_length. lia. Qed.
Lemma point_arange n z : (0 <= z < n)%Z -> point (arange n) z = Some z.
Proof.
  intros H. unfold point, arange. destruct (Z.ltb_spec z 0); [lia|].
  rewrite nth_error_map. rewrite (nth_error_nth' _ 0%nat) by (rewrite seq_length; lia).
  rewrite seq_nth by lia. cbn. f_equal. lia.
Qed.
Lemma arange_neg n : (n <= 0)%Z -> arange n = [].
Proof. intros. unfold arange. replace (Z.to_nat n) with 0%nat by lia. reflexivity. Qed.
Lemma In_arange n i : In i (arange n) <-> (0 <= i < n)%Z.
Proof.
  unfold arange. rewrite in_map_iff. split.
  - intros (k & <- & H). apply in_seq in H. lia.
  - intros H. exists (Z.to_nat i). split; [lia|]. apply in_seq. lia.
Qed.
Lemma arange_app n m : (0 <= n)%Z -> (0 <= m)%Z ->
  arange (n + m) = arange n ++ map (fun i => n + i)%Z (arange m).
Proof.
  intros. unfold arange. replace (Z.to_nat (n + m)) with (Z.to_nat n + Z.to_nat m)%nat by lia.
  rewrite seq_app, map_app. f_equal. cbn [Nat.add].
  replace (seq (Z.to_nat n) (Z.to_nat m)) with (map (fun i => Z.to_nat n + i)%nat (seq 0 (Z.to_nat m))).
  - rewrite !map_map. apply map_ext. intros. lia.
  - generalize (Z.to_nat m) as k. generalize (Z.to_nat n) as j. clear. intros j k. revert j.
    assert (G : forall k i j, map (fun x => (j + x)%nat) (seq i k) = seq (j + i) k).
    { clear. induction k as [|k IH]; intros i j; [reflexivity|]. cbn. f_equal. rewrite IH. f_equal. lia. }
    intros j. rewrite G. f_equal. lia.
Qed.
Lemma arange_succ n : (0 <= n)%Z -> arange (n + 1) = arange n ++ [n].
Proof.
  intros. rewrite arange_app by lia. change (arange 1) with [0%Z]. cbn [map]. rewrite Z.add_0_r. reflexivity.
Qed.
Lemma arange_cons n : (0 < n)%Z -> arange n = 0%Z :: map (fun i => 1 + i)%Z (arange (n - 1)).
Proof.
  intros. replace n with (1 + (n - 1))%Z at 1 by lia. rewrite arange_app by lia. reflexivity.
Qed.

Lemma prog_map s d n : (0 <= n)%Z -> progression (map (fun i => s + Qc_of_Z i * d) (arange n)) s d n.
Proof.
  intros H. split.
  - rewrite map_length. apply plen_arange, H.
  - intros i Hi. rewrite point_map, point_arange by exact Hi. reflexivity.
Qed.
Lemma prog_eq l s d n : progression l s d n -> l = map (fun i => s + Qc_of_Z i * d) (arange n).
Proof.
  intros (L & P). assert (0 <= n)%Z by lia. apply point_ext.
  - rewrite plen_map, plen_arange by lia. exact L.
  - intros z Hz. unfold plen in Hz. rewrite L in Hz. rewrite P by exact Hz.
    rewrite point_map, point_arange by exact Hz. reflexivity.
Qed.
Lemma some_inj {A} (x y : A) : Some x = Some y -> x = y.
Proof. congruence. Qed.
Lemma prog_det l s d n s' d' n' : progression l s d n -> (2 <= n)%Z -> progression l s' d' n' ->
  s = s' /\ d = d' /\ n = n'.
Proof.
  intros (L & P) Hn (L' & P'). assert (E : n = n') by lia. subst n'.
  pose proof (P 0%Z ltac:(lia)) as A. pose proof (P' 0%Z ltac:(lia)) as A'.
  pose proof (P 1%Z ltac:(lia)) as B. pose proof (P' 1%Z ltac:(lia)) as B'.
  rewrite A in A'. rewrite B in B'. apply some_inj in A'. apply some_inj in B'.
  change (Qc_of_Z 0) with 0 in *. change (Qc_of_Z 1) with 1 in *.
  assert (s = s') by (clear - A'; qclra). split; [assumption|]. split; [|exact E].
  clear - B' H. qclra.
Qed.

Lemma Qc_of_Z_nz z : z <> 0%Z -> Qc_of_Z z <> 0.
Proof. intros H E. apply H. apply (Qc_of_Z_inj z 0). exact E. Qed.

Lemma linspace_map a b n : (2 <= n)%Z ->
  linspace a b n = Ok (map (fun i => a + Qc_of_Z i * ((b - a) / Qc_of_Z (n - 1))) (arange n)).
Proof.
  intros H. unfold linspace.
  destruct (Z.ltb_spec n 0); [lia|]. destruct (Z.eqb_spec n 0); [lia|]. destruct (Z.eqb_spec n 1); [lia|].
  f_equal. replace (arange n) with (arange (n - 1 + 1)) by (f_equal; lia). rewrite (arange_succ (n - 1)) by lia.
  rewrite map_app. f_equal. cbn [map]. f_equal.
  pose proof (Qc_of_Z_nz (n - 1) ltac:(lia)). field. assumption.
Qed.

(* --- C36 --- *)
Lemma make_regular_ok p s e n : (1 <= n)%Z ->
  exists l, make_regular p s e n = Ok (Axis (Regular s e ((e - s) / Qc_of_Z n) (n + 1)) l p) /\
    progression l s ((e - s) / Qc_of_Z n) (n + 1).
Proof.
  intros H. unfold make_regular. rewrite linspace_map by lia.
  replace (n + 1 - 1)%Z with n by lia. destruct (Z.eqb_spec (n + 1) 1); [lia|].
  eexists. split; [reflexivity|]. apply prog_map. lia.
Qed.
Lemma make_inc_ok p s d n : (0 <= n)%Z ->
  exists l, make_inc p s d n = Ok (Axis (RegularInc s (s + Qc_of_Z n * d) d (n + 1)) l p) /\
    progression l s d (n + 1).
Proof.
  intros H. unfold make_inc. replace (n + 1 - 1)%Z with n by lia.
  eexists. split.
  - do 2 f_equal. f_equal. ring.
  - replace (map _ _) with (map (fun i => s + Qc_of_Z i * d) (arange (n + 1))).
    + apply prog_map. lia.
    + apply map_ext. intros. ring.
Qed.

Definition reg_form (a : axis) (s e d : Qc) (n : Z) : Prop :=
  a_form a = Regular s e d n /\ progression (a_values a) s d n /\ e = s + Qc_of_Z (n - 1) * d.
Definition inc_form (a : axis) (s e d : Qc) (n : Z) : Prop :=
  a_form a = RegularInc s e d n /\ progression (a_values a) s d n /\ e = s + Qc_of_Z (n - 1) * d.

Lemma make_regular_form p s e n : (1 <= n)%Z ->
  exists a, make_regular p s e n = Ok a /\ a_precision a = p /\ reg_form a s e ((e - s) / Qc_of_Z n) (n + 1).
Proof.
  intros H. destruct (make_regular_ok p s e n H) as (l & E & P). eexists. split; [exact E|].
  split; [reflexivity|]. split; [reflexivity|]. split; [exact P|].
  replace (n + 1 - 1)%Z with n by lia. pose proof (Qc_of_Z_nz n ltac:(lia)). field. assumption.
Qed.
Lemma make_inc_form p s d n : (0 <= n)%Z ->
  exists a, make_inc p s d n = Ok a /\ a_precision a = p /\ inc_form a s (s + Qc_of_Z n * d) d (n + 1).
Proof.
  intros H. destruct (make_inc_ok p s d n H) as (l & E & P). eexists. split; [exact E|].
  split; [reflexivity|]. split; [reflexivity|]. split; [exact P|].
  replace (n + 1 - 1)%Z with n by lia. reflexivity.
Qed.

Lemma reg_op a s e d n o : reg_form a s e d n -> (1 <= n)%Z -> regular_op o ->
  let '(s', e', n') := regular_after (s, e, n) o in
  exists b, apply_op a o = Ok b /\ (2 <= n')%Z /\ a_precision b = a_precision a /\
    reg_form b s' e' ((e' - s') / Qc_of_Z (n' - 1)) n'.
Proof.
  intros (F & _ & _) Hn Ho. unfold apply_op. rewrite F. destruct o as [v|v|v|m|m]; cbn in Ho |- *; try tauto.
  - destruct (make_regular_form (a_precision a) v e n Hn) as (b & E & Pb & B). exists b.
    replace (n + 1 - 1)%Z with n by lia. repeat (split; [first [exact E|exact Pb|lia]|]). exact B.
  - destruct (make_regular_form (a_precision a) s v n Hn) as (b & E & Pb & B). exists b.
    replace (n + 1 - 1)%Z with n by lia. repeat (split; [first [exact E|exact Pb|lia]|]). exact B.
  - destruct (make_regular_form (a_precision a) s e (m - 1) ltac:(lia)) as (b & E & Pb & B). exists b.
    replace (m - 1 + 1)%Z with m in B by lia. repeat (split; [first [exact E|exact Pb|lia]|]). exact B.
  - destruct (make_regular_form (a_precision a) s e m ltac:(lia)) as (b & E & Pb & B). exists b.
    replace (m + 1 - 1)%Z with m by lia. repeat (split; [first [exact E|exact Pb|lia]|]). exact B.
Qed.
Lemma inc_op_ok a s e d n o : inc_form a s e d n -> (1 <= n)%Z -> inc_op o ->
  let '(s', d', n') := inc_after (s, d, n) o in
  exists b, apply_op a o = Ok b /\ (1 <= n')%Z /\ a_precision b = a_precision a /\
    inc_form b s' (s' + Qc_of_Z (n' - 1) * d') d' n'.
Proof.
  intros (F & _ & _) Hn Ho. unfold apply_op. rewrite F. destruct o as [v|v|v|m|m]; cbn in Ho |- *; try tauto.
  - destruct (make_inc_form (a_precision a) v d n ltac:(lia)) as (b & E & Pb & B). exists b.
    replace (n + 1 - 1)%Z with n by lia. repeat (split; [first [exact E|exact Pb|lia]|]). exact B.
  - destruct (make_inc_form (a_precision a) s v n ltac:(lia)) as (b & E & Pb & B). exists b.
    replace (n + 1 - 1)%Z with n by lia. repeat (split; [first [exact E|exact Pb|lia]|]). exact B.
  - destruct (make_inc_form (a_precision a) s d (m - 1) ltac:(lia)) as (b & E & Pb & B). exists b.
    replace (m - 1 + 1)%Z with m in B by lia. repeat (split; [first [exact E|exact Pb|lia]|]). exact B.
  - destruct (make_inc_form (a_precision a) s d m ltac:(lia)) as (b & E & Pb & B). exists b.
    replace (m + 1 - 1)%Z with m by lia. repeat (split; [first [exact E|exact Pb|lia]|]). exact B.
Qed.
Lemma reg_ops l : forall a s e d n, reg_form a s e d n -> (2 <= n)%Z -> Forall regular_op l ->
  let '(s', e', n') := fold_left regular_after l (s, e, n) in
  exists b d', apply_ops a l = Ok b /\ (2 <= n')%Z /\ reg_form b s' e' d' n'.
Proof.
  induction l as [|o l IH]; intros a s e d n F Hn Ho; cbn [fold_left apply_ops].
  - exists a, d. auto.
  - inversion Ho as [|? ? Ho1 Ho2]; subst.
    pose proof (reg_op a s e d n o F ltac:(lia) Ho1) as G.
    destruct (regular_after (s, e, n) o) as [[s' e'] n']. destruct G as (b & E & Hn' & _ & B).
    rewrite E. cbn [bind]. apply (IH b s' e' _ n' B Hn' Ho2).
Qed.
Lemma inc_ops l : forall a s e d n, inc_form a s e d n -> (1 <= n)%Z -> Forall inc_op l ->
  let '(s', d', n') := fold_left inc_after l (s, d, n) in
  exists b e', apply_ops a l = Ok b /\ (1 <= n')%Z /\ inc_form b s' e' d' n'.
Proof.
  induction l as [|o l IH]; intros a s e d n F Hn Ho; cbn [fold_left apply_ops].
  - exists a, e. auto.
  - inversion Ho as [|? ? Ho1 Ho2]; subst.
    pose proof (inc_op_ok a s e d n o F ltac:(lia) Ho1) as G.
    destruct (inc_after (s, d, n) o) as [[s' d'] n']. destruct G as (b & E & Hn' & _ & B).
    rewrite E. cbn [bind]. apply (IH b s' _ d' n' B Hn' Ho2).
Qed.

(* --- C35 --- *)
Lemma argmin_from_spec l : forall best bi k,
  let r := argmin_from best bi k l in
  (r = bi /\ (forall i y, point l i = Some y -> best <= y)) \/
  (exists x, point l (r - k) = Some x /\ (0 <= r - k)%Z /\ x < best /\
    (forall i y, point l i = Some y -> x <= y) /\
    (forall i y, (i < r - k)%Z -> point l i = Some y -> x < y)).
Proof.
  induction l as [|a l IH]; intros best bi k; cbn [argmin_from].
  - left. split; [reflexivity|]. intros i y H. unfold point in H. destruct (i <? 0)%Z; [discriminate|].
    destruct (Z.to_nat i); discriminate.
  - assert (P0 : forall i y, point (a :: l) i = Some y -> (i = 0 /\ y = a)%Z \/ (0 < i /\ point l (i - 1) = Some y)%Z).
    { intros i y H. unfold point in *. destruct (Z.ltb_spec i 0); [discriminate|].
      destruct (Z.eq_dec i 0) as [->|N]; [left; cbn in H; split; congruence|].
      right. split; [lia|]. destruct (Z.ltb_spec (i - 1) 0); [lia|].
      replace (Z.to_nat i) with (S (Z.to_nat (i - 1))) in H by lia. exact H. }
    assert (PS : forall i, (0 <= i)%Z -> point (a :: l) (i + 1) = point l i).
    { intros i Hi. unfold point. destruct (Z.ltb_spec (i + 1) 0); [lia|]. destruct (Z.ltb_spec i 0); [lia|].
      replace (Z.to_nat (i + 1)) with (S (Z.to_nat i)) by lia. reflexivity. }
    destruct (Qc_ltb a best) eqn:E; qc_bool.
    + right. specialize (IH a k (k + 1)%Z). cbv zeta in *.
      set (r := argmin_from a k (k + 1) l) in *. destruct IH as [(Er & H)|(x & Hx & R & Lx & H & H2)].
      * exists a. rewrite Er. replace (k - k)%Z with 0%Z by lia. split; [reflexivity|]. split; [lia|]. split; [exact E|]. split.
        -- intros i y Hy. apply P0 in Hy as [[_ ->]|[_ Hy]]; [apply Qcle_refl|]. apply (H _ _ Hy).
        -- intros i y Hi Hy. apply P0 in Hy. lia.
      * exists x. assert (Hr : point (a :: l) (r - k) = Some x).
        { replace (r - k)%Z with ((r - (k + 1)) + 1)%Z by lia. rewrite PS by lia. exact Hx. }
        split; [exact Hr|]. split; [lia|]. split; [clear - E Lx; qclra|]. split.
        -- intros i y Hy. apply P0 in Hy as [[_ ->]|[_ Hy]]; [apply Qclt_le_weak, Lx|]. apply (H _ _ Hy).
        -- intros i y Hi Hy. apply P0 in Hy as [[_ ->]|[_ Hy]]; [exact Lx|]. apply (H2 (i - 1)%Z y); [lia|exact Hy].
    + specialize (IH best bi (k + 1)%Z). cbv zeta in *.
      set (r := argmin_from best bi (k + 1) l) in *. destruct IH as [(Er & H)|(x & Hx & R & Lx & H & H2)].
      * left. split; [exact Er|]. intros i y Hy. apply P0 in Hy as [[_ ->]|[_ Hy]]; [exact E|]. apply (H _ _ Hy).
      * right. exists x. assert (Hr : point (a :: l) (r - k) = Some x).
        { replace (r - k)%Z with ((r - (k + 1)) + 1)%Z by lia. rewrite PS by lia. exact Hx. }
        split; [exact Hr|]. split; [lia|]. split; [exact Lx|]. split.
        -- intros i y Hy. apply P0 in Hy as [[_ ->]|[_ Hy]]; [clear - E Lx; qclra|]. apply (H _ _ Hy).
        -- intros i y Hi Hy. apply P0 in Hy as [[_ ->]|[_ Hy]]; [clear - E Lx; qclra|]. apply (H2 (i - 1)%Z y); [lia|exact Hy].
Qed.
Lemma argmin_spec l : l <> [] -> exists k x, argmin l = Ok k /\ point l k = Some x /\
  (forall i y, point l i = Some y -> x <= y) /\ (forall i y, (i < k)%Z -> point l i = Some y -> x < y).
Proof.
  destruct l as [|a l]; [congruence|]. intros _. cbn [argmin].
  pose proof (argmin_from_spec (a :: l) (a + 1) (-1) 0) as G. cbn [argmin_from] in G.
  replace (Qc_ltb a (a + 1)) with true in G by (symmetry; apply Qc_ltb_lt; qclra).
  change (0 + 1)%Z with 1%Z in G. cbv zeta in G. set (r := argmin_from a 0 1 l) in *.
  exists r. destruct G as [(Er & H)|(x & Hx & R & _ & H & H2)].
  - exfalso. specialize (H 0%Z a eq_refl). clear - H. qclra.
  - rewrite Z.sub_0_r in *. exists x. auto.
Qed.
Lemma nearest_argmin arr v : arr <> [] ->
  exists k, argmin (map (fun x => Qc_abs (x - v)) arr) = Ok k /\ first_nearest arr v k.
Proof.
  intros H. destruct (argmin_spec (map (fun x => Qc_abs (x - v)) arr)) as (k & x & E & Px & M & F).
  - destruct arr; [congruence|discriminate].
  - exists k. split; [exact E|]. rewrite point_map in Px. destruct (point arr k) as [a|] eqn:Ea; [|discriminate].
    cbn in Px. apply some_inj in Px. subst x. exists a. split; [exact Ea|]. split.
    + intros i y Hy. apply (M i). rewrite point_map, Hy. reflexivity.
    + intros i y Hi Hy. apply (F i); [exact Hi|]. rewrite point_map, Hy. reflexivity.
Qed.
Lemma point_nil {A} i : @point A [] i = None.
Proof. unfold point. destruct (i <? 0)%Z; [reflexivity|]. destruct (Z.to_nat i); reflexivity. Qed.
Lemma closest_noindex arr v isx : arr <> [] -> (forall z, v = NInt z -> isx v = false) ->
  exists k, arg_closest_num arr v isx = Ok k /\ first_nearest arr (num_val v) k.
Proof.
  intros H Hi. destruct (nearest_argmin arr (num_val v) H) as (k & E & N). exists k. split; [|exact N].
  unfold arg_closest_num. destruct v as [z|q]; [rewrite (Hi z eq_refl)|]; exact E.
Qed.
Lemma first_nearest_unique arr v k k' : first_nearest arr v k -> first_nearest arr v k' -> k = k'.
Proof.
  intros (x & P & M & F) (x' & P' & M' & F').
  destruct (Z.lt_trichotomy k k') as [L|[E|L]]; [|exact E|]; exfalso.
  - specialize (F' k x L P). specialize (M k' x' P'). revert F' M.
    generalize (Qc_abs (x - v)) (Qc_abs (x' - v)). intros a b ? ?. qclra.
  - specialize (F k' x' L P'). specialize (M' k x P). revert F M'.
    generalize (Qc_abs (x - v)) (Qc_abs (x' - v)). intros a b ? ?. qclra.
Qed.
Lemma Qc_abs_nonneg x : 0 <= Qc_abs x.
Proof. unfold Qc_abs. destruct (Qc_leb 0 x) eqn:E; qc_bool; qclra. Qed.
Lemma Qc_abs_pos x : x <> 0 -> 0 < Qc_abs x.
Proof.
  unfold Qc_abs. destruct (Qc_leb 0 x) eqn:E; qc_bool; intros N; [|qclra].
  destruct (Qc_lt_le_dec_bool 0 x) as [L|L]; [exact L|]. exfalso. apply N. clear N. qclra.
Qed.
Lemma Qc_abs_0 : Qc_abs 0 = 0. Proof. reflexivity. Qed.
Lemma own_nearest arr v k : (forall i j x, point arr i = Some x -> point arr j = Some x -> i = j) ->
  point arr k = Some v -> first_nearest arr v k.
Proof.
  intros D P. exists v. replace (v - v) with 0 by ring. rewrite Qc_abs_0. split; [exact P|]. split.
  - intros. apply Qc_abs_nonneg.
  - intros i y Hi Hy. apply Qc_abs_pos. intros E. assert (y = v) by (clear - E; qclra). subst y.
    specialize (D i k v Hy P). lia.
Qed.
Lemma monotonic_distinct l : monotonic l -> forall i j x, point l i = Some x -> point l j = Some x -> i = j.
Proof.
  intros M i j x Hi Hj. destruct (Z.lt_trichotomy i j) as [L|[E|L]]; [|exact E|]; exfalso;
  destruct M as [M|M]; specialize (M _ _ _ _ L ltac:(eassumption) ltac:(eassumption)); clear - M; qclra.
Qed.
Lemma locate_one b arr v det : arr <> [] -> (det = true -> b = true -> forall z, v <> NInt z) ->
  exists k, locate b arr (TOne v) det = Ok (LOne k) /\ first_nearest arr (num_val v) k.
Proof.
  intros H Hd. unfold locate. destruct det.
  - destruct arr as [|x arr]; [congruence|]. cbn [py_get py_pos length Nat.eqb bind].
    replace (py_get (x :: arr) 0) with (Ok x) by (symmetry; now apply py_get_point).
    cbn [bind].
    destruct (closest_noindex (x :: arr) v
      (fun v0 => b && match v0 with NInt _ => true | NFlt _ => false end) H) as (k & E & N).
    { intros z ->. destruct b; [|reflexivity]. exfalso. apply (Hd eq_refl eq_refl z eq_refl). }
    rewrite E. cbn [bind]. eauto.
  - cbn [bind]. destruct (closest_noindex arr v (fun _ => false) H ltac:(auto)) as (k & E & N).
    rewrite E. cbn [bind]. eauto.
Qed.
Lemma locate_many b arr l det : arr <> [] -> l <> [] ->
  (det = true -> b = true -> forall z, ~ In (NInt z) l) ->
  exists ks, locate b arr (TMany l) det = Ok (LMany ks) /\
    Forall2 (fun v k => first_nearest arr (num_val v) k) l ks.
Proof.
  intros H Hl Hd. unfold locate.
  assert (G : forall isx, (forall z, In (NInt z) l -> isx (NInt z) = false) ->
     exists ks, mapM (fun v => arg_closest_num arr v isx) l = Ok ks /\
       Forall2 (fun v k => first_nearest arr (num_val v) k) l ks).
  { intros isx. clear Hl Hd. induction l as [|v l IH]; intros Hi; [exists []; split; [reflexivity|constructor]|].
    destruct (closest_noindex arr v isx H) as (k & E & N).
    { intros z ->. apply Hi. now left. }
    destruct IH as (ks & E' & N'). { intros z Hz. apply Hi. now right. }
    exists (k :: ks). cbn [mapM]. rewrite E. cbn [bind]. rewrite E'. cbn [bind]. split; [reflexivity|]. now constructor. }
  assert (P1 : exists x, py_get arr 0 = Ok x).
  { destruct arr as [|x arr]; [congruence|]. exists x. now apply py_get_point. }
  assert (P2 : exists x, py_get l 0 = Ok x).
  { destruct l as [|x l]; [congruence|]. exists x. now apply py_get_point. }
  destruct P1 as (x & P1), P2 as (y & P2). destruct det; cbn [bind]; rewrite P1, P2; cbn [bind].
  - edestruct (G (fun v0 => b && match v0 with NInt _ => true | NFlt _ => false end)) as (ks & E & F).
    { intros z Hz. destruct b; [|reflexivity]. exfalso. apply (Hd eq_refl eq_refl z Hz). }
    exists ks. rewrite E. cbn [bind]. auto.
  - destruct (G (fun _ => false) ltac:(auto)) as (ks & E & F). exists ks. rewrite E. cbn [bind]. auto.
Qed.
