(* Proofs about segmented axes, simplification and new limits: C37, C38, C63. *)
From Coq Require Import Qround Sorting.
From Verif Require Import Base BaseProofs QcTac ZList ZListProofs AxisModel AxisSpec AxisProofs.
Local Open Scope Qc_scope.

(* --- C37 --- *)
Lemma seg_loop_cons a b l n ns : seg_loop (a :: b :: l) (n :: ns) =
  if (n =? 0)%Z then Err ZeroDivisionError else
  let inc := (b - a) / Qc_of_Z n in
  let vals := map (fun i => a + inc * Qc_of_Z i) (arange n) in
  let! (lm, st, vs) := seg_loop (b :: l) ns in
  Ok (a :: lm, inc :: st, vals ++ vs).
Proof. reflexivity. Qed.
Lemma seg_loop_ok ns : forall limits, length limits = S (length ns) -> Forall (fun n => 1 <= n)%Z ns ->
  exists st vs, seg_loop limits ns = Ok (limits, st, vs) /\ length st = length ns /\
    plen vs = (zsum ns + 1)%Z /\
    (forall s, nth_error limits 0 = Some s -> point vs 0 = Some s) /\
    (forall j n s e, nth_error ns j = Some n -> nth_error limits j = Some s -> nth_error limits (S j) = Some e ->
      exists d, nth_error st j = Some d /\ d = (e - s) / Qc_of_Z n /\
        forall k, (0 <= k <= n)%Z -> point vs (before ns j + k) = Some (s + Qc_of_Z k * d)).
Proof.
  induction ns as [|n ns IH]; intros limits L F.
  - destruct limits as [|e [|? ?]]; cbn in L; try lia. exists [], [e]. cbn [seg_loop].
    split; [reflexivity|]. split; [reflexivity|]. split; [reflexivity|]. split.
    + cbn. intros s [= ->]. reflexivity.
    + intros j ? ? ? H. destruct j; discriminate.
  - inversion F as [|? ? Hn F']; subst. destruct limits as [|s0 [|e0 limits]]; cbn [length] in L; try lia.
    destruct (IH (e0 :: limits)) as (st & vs & E & Ls & Lv & Hs & HH); [cbn [length]; lia|exact F'|].
    rewrite seg_loop_cons. destruct (Z.eqb_spec n 0); [lia|]. cbv zeta. rewrite E. cbn [bind].
    set (inc := (e0 - s0) / Qc_of_Z n). set (v1 := map (fun i => s0 + inc * Qc_of_Z i) (arange n)).
    assert (L1 : plen v1 = n) by (unfold v1; rewrite plen_map; apply plen_arange; lia).
    assert (P1 : forall k, (0 <= k < n)%Z -> point v1 k = Some (s0 + Qc_of_Z k * inc)).
    { intros k Hk. unfold v1. rewrite point_map, point_arange by lia. cbn [option_map]. f_equal. ring. }
    assert (P2 : forall k, (n <= k)%Z -> point (v1 ++ vs) k = point vs (k - n)).
    { intros k Hk. rewrite point_app by lia. rewrite L1. destruct (Z.ltb_spec k n); [lia|reflexivity]. }
    assert (P1' : forall k, (0 <= k < n)%Z -> point (v1 ++ vs) k = Some (s0 + Qc_of_Z k * inc)).
    { intros k Hk. rewrite point_app by lia. rewrite L1. destruct (Z.ltb_spec k n); [|lia]. apply P1, Hk. }
    exists (inc :: st), (v1 ++ vs). split; [reflexivity|]. split; [cbn [length]; lia|].
    split; [rewrite plen_app, L1, Lv; cbn [zsum]; lia|]. split.
    + cbn [nth_error]. intros s Es. rewrite P1' by lia. rewrite <- Es. f_equal. change (Qc_of_Z 0) with 0. ring.
    + intros j m s e Hm Hs' He. destruct j as [|j].
      * cbn [nth_error] in Hm, Hs', He |- *. apply some_inj in Hm, Hs', He. subst m s e.
        exists inc. split; [reflexivity|]. split; [reflexivity|]. unfold before. cbn [firstn zsum]. intros k Hk.
        rewrite Z.add_0_l. destruct (Z.eq_dec k n) as [->|N]; [|apply P1'; lia].
        rewrite P2 by lia. rewrite Z.sub_diag. rewrite (Hs e0 eq_refl). f_equal.
        unfold inc. pose proof (Qc_of_Z_nz n ltac:(lia)). field. assumption.
      * cbn [nth_error] in Hm, Hs', He |- *. destruct (HH j m s e Hm Hs' He) as (d & D1 & D2 & D3).
        exists d. split; [exact D1|]. split; [exact D2|]. intros k Hk.
        unfold before in *. cbn [firstn zsum].
        assert (0 <= zsum (firstn j ns))%Z.
        { clear - F'. revert ns F'. induction j as [|j IHj]; intros ns F'; [cbn; lia|].
          destruct ns as [|a ns]; [cbn; lia|]. inversion F'; subst. cbn [firstn zsum]. specialize (IHj ns H2). lia. }
        rewrite P2 by lia. rewrite <- (D3 k Hk). f_equal. lia.
Qed.
Lemma segments_ok p limits ns : ns <> [] -> length limits = S (length ns) -> Forall (fun n => 1 <= n)%Z ns ->
  exists st vs, make_segments p limits ns = Ok (Axis (Segments limits ns st) vs p) /\ length st = length ns /\
    plen vs = (zsum ns + 1)%Z /\
    (forall j n s e, nth_error ns j = Some n -> nth_error limits j = Some s -> nth_error limits (S j) = Some e ->
      exists d, nth_error st j = Some d /\ d = (e - s) / Qc_of_Z n /\
        forall k, (0 <= k <= n)%Z -> point vs (before ns j + k) = Some (s + Qc_of_Z k * d)).
Proof.
  intros N L F. destruct (seg_loop_ok ns limits L F) as (st & vs & E & Ls & Lv & _ & H).
  exists st, vs. split; [|auto]. unfold make_segments. rewrite L.
  replace (S (length ns)) with (length ns + 1)%nat by lia. rewrite Nat.eqb_refl. cbn [negb].
  destruct ns as [|n ns]; [congruence|]. rewrite E. reflexivity.
Qed.

(* rounding an exact ratio *)
Lemma round_even_Z z : round_even (Qc_of_Z z) = z.
Proof.
  unfold round_even. assert (E : Qfloor (this (Qc_of_Z z)) = z).
  { unfold Qc_of_Z. rewrite (Qfloor_comp _ (inject_Z z)) by apply this_Q2Qc. apply Qfloor_Z. }
  rewrite E. replace (Qc_of_Z z - Qc_of_Z z) with 0 by ring.
  replace (Qc_ltb 0 (Q2Qc (1 # 2))) with true by reflexivity. reflexivity.
Qed.
Lemma steps_of_sizes_cons a b l d st : steps_of_sizes (a :: b :: l) (d :: st) =
  if Qc_eqb d 0 then Err ZeroDivisionError else
  let n := round_even ((b - a) / d) in
  let! ns := steps_of_sizes (b :: l) st in Ok (n :: ns).
Proof. reflexivity. Qed.
Lemma steps_of_sizes_ok limits : forall st ns, length limits = S (length ns) -> length st = length ns ->
  (forall j n s e d, nth_error ns j = Some n -> nth_error limits j = Some s -> nth_error limits (S j) = Some e ->
     nth_error st j = Some d -> d <> 0 /\ e - s = Qc_of_Z n * d) ->
  steps_of_sizes limits st = Ok ns.
Proof.
  induction limits as [|a limits IH]; intros st ns L1 L2 H; [cbn in L1; lia|].
  destruct ns as [|n ns]; destruct st as [|d st]; cbn [length] in L1, L2; try lia; [reflexivity|].
  destruct limits as [|b limits]; [cbn in L1; lia|]. rewrite steps_of_sizes_cons. cbv zeta.
  destruct (H 0%nat n a b d eq_refl eq_refl eq_refl eq_refl) as (Nd & Ed).
  destruct (Qc_eqb d 0) eqn:Ez; qc_bool; [congruence|].
  rewrite (IH st ns); [|cbn [length] in *; lia|lia|].
  - cbn [bind]. do 2 f_equal. rewrite Ed. replace (Qc_of_Z n * d / d) with (Qc_of_Z n) by (field; exact Nd).
    apply round_even_Z.
  - intros j n' s e d' H1 H2 H3 H4. apply (H (S j) n' s e d' H1 H2 H3 H4).
Qed.

(* --- differences of a function sampled at 0, 1, ... --- *)
Lemma diff_seq (g : nat -> Qc) n : forall a, diff (map g (seq a (S n))) = map (fun i => g (S i) - g i) (seq a n).
Proof.
  induction n as [|n IH]; intros a; [reflexivity|].
  change (seq a (S (S n))) with (a :: seq (S a) (S n)). cbn [map].
  change (seq a (S n)) with (a :: seq (S a) n). cbn [map].
  rewrite <- IH. reflexivity.
Qed.
Lemma diff_arange (f : Z -> Qc) n : (1 <= n)%Z ->
  diff (map f (arange n)) = map (fun i => f (i + 1)%Z - f i) (arange (n - 1)).
Proof.
  intros H. unfold arange. rewrite !map_map. replace (Z.to_nat n) with (S (Z.to_nat (n - 1))) by lia.
  rewrite diff_seq. apply map_ext. intros a. rewrite Nat2Z.inj_succ. reflexivity.
Qed.
Lemma diff2_arange (f : Z -> Qc) n : (2 <= n)%Z ->
  diff (diff (map f (arange n))) = map (fun i => (f (i + 2)%Z - f (i + 1)%Z) - (f (i + 1)%Z - f i)) (arange (n - 2)).
Proof.
  intros H. rewrite diff_arange by lia. rewrite (diff_arange (fun i => f (i + 1)%Z - f i)) by lia.
  replace (n - 1 - 1)%Z with (n - 2)%Z by lia. apply map_ext. intros i. replace (i + 1 + 1)%Z with (i + 2)%Z by lia. reflexivity.
Qed.
Definition at_ (x : list Qc) (i : Z) : Qc := match point x i with Some v => v | None => 0 end.
Lemma sampled x : x = map (at_ x) (arange (plen x)).
Proof.
  apply point_ext; [rewrite plen_map, plen_arange; [reflexivity|apply Nat2Z.is_nonneg]|].
  intros z Hz. rewrite point_map, point_arange by exact Hz. cbn [option_map]. unfold at_.
  destruct (point_some x z Hz) as (v & ->). reflexivity.
Qed.
Lemma qmax1_le l : forall x p, qmax1 x l <= p <-> x <= p /\ Forall (fun y => y <= p) l.
Proof.
  induction l as [|y l IH]; intros x p; cbn [qmax1].
  - split; [intros H; split; [exact H|constructor]|tauto].
  - rewrite IH. assert (Qc_max x y <= p <-> x <= p /\ y <= p) as E.
    { unfold Qc_max. destruct (Qc_leb x y) eqn:Ex; qc_bool; split; intros; repeat split; try tauto; qclra. }
    rewrite E. split; [intros [[? ?] ?]; split; [|constructor]; assumption|].
    intros [? Hf]. inversion Hf; subst. tauto.
Qed.
Lemma qmax_ok l : l <> [] -> exists m, qmax l = Ok m /\ (forall p, m <= p <-> Forall (fun y => y <= p) l).
Proof.
  destruct l as [|x l]; [congruence|]. intros _. exists (qmax1 x l). split; [reflexivity|].
  intros p. rewrite qmax1_le. split; [intros [? ?]; constructor; assumption|intros H; inversion H; subst; tauto].
Qed.
Lemma Qc_abs_le0 x : Qc_abs x <= 0 -> x = 0.
Proof.
  intros H. destruct (Qc_eqb x 0) eqn:E; qc_bool; [exact E|].
  pose proof (Qc_abs_pos x E). exfalso. revert H H0. generalize (Qc_abs x). intros. qclra.
Qed.

(* --- where --- *)
Lemma where_gt_spec p l : forall k, StronglySorted Z.lt (where_gt p k l) /\
  (forall i, In i (where_gt p k l) <-> exists v, (k <= i)%Z /\ point l (i - k) = Some v /\ p < v).
Proof.
  induction l as [|x l IH]; intros k; cbn [where_gt].
  - split; [constructor|]. intros i. split; [intros []|]. intros (v & _ & H & _). rewrite point_nil in H. discriminate.
  - destruct (IH (k + 1)%Z) as (S & M).
    assert (PS : forall i, (k + 1 <= i)%Z -> point (x :: l) (i - k) = point l (i - (k + 1))).
    { intros i Hi. unfold point. destruct (Z.ltb_spec (i - k) 0); [lia|]. destruct (Z.ltb_spec (i - (k + 1)) 0); [lia|].
      replace (Z.to_nat (i - k)) with (Datatypes.S (Z.to_nat (i - (k + 1)))) by lia. reflexivity. }
    assert (G : forall i, (exists v, (k <= i)%Z /\ point (x :: l) (i - k) = Some v /\ p < v) <->
      (i = k /\ p < x) \/ In i (where_gt p (k + 1) l)).
    { intros i. rewrite M. split.
      - intros (v & Hk & Hp & Hv). destruct (Z.eq_dec i k) as [->|N].
        + left. rewrite Z.sub_diag in Hp. cbn in Hp. split; [reflexivity|]. apply some_inj in Hp. now subst v.
        + right. exists v. rewrite <- PS by lia. repeat split; [lia|exact Hp|exact Hv].
      - intros [[-> Hx]|(v & Hk & Hp & Hv)].
        + exists x. rewrite Z.sub_diag. split; [lia|]. split; [reflexivity|exact Hx].
        + exists v. rewrite PS by lia. split; [lia|]. split; assumption. }
    destruct (Qc_ltb p x) eqn:E; qc_bool.
    + split.
      * constructor; [exact S|]. apply Forall_forall. intros i Hi. apply M in Hi. destruct Hi as (? & ? & _). lia.
      * intros i. rewrite G. cbn [In]. intuition congruence.
    + split; [exact S|]. intros i. rewrite G. split; [tauto|]. intros [[_ Hx]|H]; [|exact H].
      exfalso. clear - E Hx. qclra.
Qed.

(* --- segments of a sampled function --- *)
Definition irange (a n : Z) : list Z := map (fun i => a + i)%Z (arange n).
Lemma irange_app a n m : (0 <= n)%Z -> (0 <= m)%Z -> irange a (n + m) = irange a n ++ irange (a + n) m.
Proof.
  intros. unfold irange. rewrite arange_app by lia. rewrite map_app, map_map. f_equal.
  apply map_ext. intros. lia.
Qed.
Lemma irange_1 a : irange a 1 = [a].
Proof. unfold irange. change (arange 1) with [0%Z]. cbn [map]. now rewrite Z.add_0_r. Qed.

Section Seg.
Variable f : Z -> Qc.
Fixpoint seglin (ind : list Z) : Prop :=
  match ind with
  | i :: ((j :: _) as l) =>
      (forall k, (0 <= k <= j - i)%Z -> f (i + k)%Z = f i + (f j - f i) / Qc_of_Z (j - i) * Qc_of_Z k) /\ seglin l
  | _ => True
  end.
Lemma seg_values ind : forall i0, StronglySorted Z.lt (i0 :: ind) -> seglin (i0 :: ind) ->
  exists st, seg_loop (map f (i0 :: ind)) (zdiff (i0 :: ind)) =
    Ok (map f (i0 :: ind), st, map f (irange i0 (last (i0 :: ind) 0 - i0 + 1)%Z)).
Proof.
  induction ind as [|j ind IH]; intros i0 S H.
  - exists []. cbn [map zdiff seg_loop last]. rewrite Z.sub_diag, Z.add_0_l, irange_1. reflexivity.
  - inversion S as [|? ? S' F']; subst. destruct H as (H & H'). destruct (IH j S' H') as (st & E).
    change (zdiff (i0 :: j :: ind)) with ((j - i0)%Z :: zdiff (j :: ind)). change (map f (i0 :: j :: ind)) with (f i0 :: f j :: map f ind).
    rewrite seg_loop_cons. cbv zeta. assert (Hij : (i0 < j)%Z) by (inversion F'; assumption).
    destruct (Z.eqb_spec (j - i0) 0); [lia|].
    change (f j :: map f ind) with (map f (j :: ind)). rewrite E. cbn [bind].
    eexists. do 2 f_equal.
    replace (last (i0 :: j :: ind) 0%Z) with (last (j :: ind) 0%Z) by reflexivity.
    set (lst := last (j :: ind) 0%Z) in *.
    assert (Hl : (j <= lst)%Z).
    { clear - S'. unfold lst. clear lst. revert j S'. induction ind as [|m ind IH]; intros j S'; [cbn; lia|].
      inversion S' as [|? ? S2 F2]; subst. change (last (j :: m :: ind) 0%Z) with (last (m :: ind) 0%Z).
      inversion F2; subst. specialize (IH m S2). lia. }
    replace (lst - i0 + 1)%Z with ((j - i0) + (lst - j + 1))%Z by lia.
    rewrite (irange_app i0 (j - i0) (lst - j + 1)) by lia. rewrite map_app. replace (i0 + (j - i0))%Z with j by lia. f_equal.
    unfold irange. rewrite map_map. apply map_ext_in. intros k Hk. apply In_arange in Hk.
    symmetry. apply H. lia.
Qed.

(* a function whose second differences vanish between i and j is linear there *)
Lemma linear_between i j : (i < j)%Z ->
  (forall k, (i < k < j)%Z -> f (k + 1)%Z - f k = f k - f (k - 1)%Z) ->
  forall k, (0 <= k <= j - i)%Z -> f (i + k)%Z = f i + (f j - f i) / Qc_of_Z (j - i) * Qc_of_Z k.
Proof.
  intros Hij H. set (d := f (i + 1)%Z - f i).
  assert (D : forall m, (Z.of_nat m < j - i)%Z -> f (i + Z.of_nat m + 1)%Z - f (i + Z.of_nat m)%Z = d).
  { induction m as [|m IH]; intros Hm; [unfold d; cbn [Z.of_nat]; rewrite Z.add_0_r; reflexivity|].
    rewrite H by lia. rewrite <- IH by lia. f_equal; f_equal; lia. }
  assert (V : forall m, (Z.of_nat m <= j - i)%Z -> f (i + Z.of_nat m)%Z = f i + d * Qc_of_Z (Z.of_nat m)).
  { induction m as [|m IH]; intros Hm.
    - cbn [Z.of_nat]. rewrite Z.add_0_r. change (Qc_of_Z 0) with 0. ring.
    - specialize (D m ltac:(lia)). specialize (IH ltac:(lia)).
      replace (i + Z.of_nat (Datatypes.S m))%Z with (i + Z.of_nat m + 1)%Z by lia.
      replace (Z.of_nat (Datatypes.S m)) with (Z.of_nat m + 1)%Z by lia. rewrite Qc_of_Z_plus.
      change (Qc_of_Z 1) with 1.
      replace (f (i + Z.of_nat m + 1)%Z) with ((f (i + Z.of_nat m + 1)%Z - f (i + Z.of_nat m)%Z) + f (i + Z.of_nat m)%Z) by ring.
      rewrite D, IH. ring. }
  intros k Hk. replace k with (Z.of_nat (Z.to_nat k)) by lia. rewrite V by lia.
  replace (f j) with (f (i + Z.of_nat (Z.to_nat (j - i)))%Z) by (f_equal; lia). rewrite V by lia.
  replace (Z.of_nat (Z.to_nat (j - i))) with (j - i)%Z by lia.
  pose proof (Qc_of_Z_nz (j - i) ltac:(lia)). clearbody d. field. assumption.
Qed.
Lemma seglin_of ind : StronglySorted Z.lt ind ->
  (forall i j k, In i ind -> In j ind -> (i < k < j)%Z -> ~ In k ind -> f (k + 1)%Z - f k = f k - f (k - 1)%Z) ->
  seglin ind.
Proof.
  induction ind as [|i ind IH]; intros S H; [exact I|]. destruct ind as [|j ind]; [exact I|].
  inversion S as [|? ? S' F']; subst. split.
  - apply linear_between; [inversion F'; assumption|]. intros k Hk. apply (H i j k); [now left|right; now left|exact Hk|].
    intros [E|[E|E]]; [lia|lia|]. inversion S' as [|? ? S2 F2]; subst. rewrite Forall_forall in F2. specialize (F2 k E). lia.
  - apply IH; [exact S'|]. intros a b k Ha Hb Hk Nk. apply (H a b k); [now right|now right|exact Hk|].
    intros [E|E]; [|exact (Nk E)]. subst k. rewrite Forall_forall in F'. specialize (F' a Ha). lia.
Qed.
End Seg.

Lemma mapM_get (x : list Qc) ind : Forall (fun i => 0 <= i < plen x)%Z ind ->
  mapM (py_get x) ind = Ok (map (at_ x) ind).
Proof.
  induction ind as [|i ind IH]; intros H; [reflexivity|]. inversion H; subst. cbn [mapM map].
  destruct (point_some x i H2) as (v & E). rewrite (py_get_point x i v (proj1 H2) E). cbn [bind].
  rewrite IH by assumption. cbn [bind]. unfold at_ at 2. rewrite E. reflexivity.
Qed.
Lemma SSorted_app_last (l : list Z) m : StronglySorted Z.lt l -> Forall (fun i => i < m)%Z l -> StronglySorted Z.lt (l ++ [m]).
Proof.
  induction l as [|a l IH]; intros S F; [repeat constructor|]. inversion S; inversion F; subst. cbn [app].
  constructor; [now apply IH|]. apply Forall_app. split; [assumption|]. now constructor.
Qed.
Lemma SSorted_map_succ (l : list Z) : StronglySorted Z.lt l -> StronglySorted Z.lt (map (fun i => i + 1)%Z l).
Proof.
  induction l as [|a l IH]; intros S; [constructor|]. inversion S as [|? ? S' F]; subst. cbn [map]. constructor; [now apply IH|].
  apply Forall_map. eapply Forall_impl; [|exact F]. cbn. intros. lia.
Qed.
Lemma last_app1 {A} (l : list A) a d : last (l ++ [a]) d = a.
Proof. induction l as [|b l IH]; [reflexivity|]. cbn [app last]. destruct (l ++ [a]) eqn:E; [destruct l; discriminate|exact IH]. Qed.

(* the break points of simplify *)
Lemma breaks_spec x p : (3 <= plen x)%Z ->
  let d := map Qc_abs (diff (diff x)) in
  let ind := (0 :: map (fun i => i + 1) (where_gt p 0 d) ++ [plen x - 1])%Z in
  StronglySorted Z.lt ind /\ Forall (fun i => 0 <= i < plen x)%Z ind /\
  (forall k, (0 < k < plen x - 1)%Z ->
     (In k ind <-> p < Qc_abs ((at_ x (k + 1) - at_ x k) - (at_ x k - at_ x (k - 1))))).
Proof.
  intros Hn d ind. destruct (where_gt_spec p d 0) as (S & M).
  assert (Ed : d = map (fun i => Qc_abs ((at_ x (i + 2)%Z - at_ x (i + 1)%Z) - (at_ x (i + 1)%Z - at_ x i))) (arange (plen x - 2))).
  { unfold d. rewrite (sampled x) at 1. rewrite diff2_arange by lia. rewrite map_map. reflexivity. }
  assert (W : forall i, In i (where_gt p 0 d) <-> (0 <= i < plen x - 2)%Z /\
     p < Qc_abs ((at_ x (i + 2)%Z - at_ x (i + 1)%Z) - (at_ x (i + 1)%Z - at_ x i))).
  { intros i. rewrite M. rewrite Z.sub_0_r. rewrite Ed. rewrite point_map. split.
    - intros (v & Hi & Hp & Hv). destruct (Z.lt_ge_cases i (plen x - 2)) as [L|L].
      + rewrite point_arange in Hp by lia. cbn [option_map] in Hp. apply some_inj in Hp. rewrite Hp. split; [lia|exact Hv].
      + replace (point (arange (plen x - 2)) i) with (@None Z) in Hp; [discriminate|]. symmetry.
        apply point_none. right. rewrite plen_arange by lia. lia.
    - intros (Hi & Hv). eexists. split; [lia|]. rewrite point_arange by lia. split; [reflexivity|exact Hv]. }
  assert (B : Forall (fun i => 0 < i < plen x - 1)%Z (map (fun i => i + 1)%Z (where_gt p 0 d))).
  { apply Forall_map, Forall_forall. intros i Hi. apply W in Hi. lia. }
  split; [|split].
  - unfold ind. change (0%Z :: ?l ++ ?m) with ((0%Z :: l) ++ m). apply SSorted_app_last.
    + constructor; [apply SSorted_map_succ, S|]. eapply Forall_impl; [|exact B]. cbn. intros; lia.
    + constructor; [lia|]. eapply Forall_impl; [|exact B]. cbn. intros; lia.
  - unfold ind. constructor; [lia|]. apply Forall_app. split; [|constructor; [lia|constructor]].
    eapply Forall_impl; [|exact B]. cbn. intros; lia.
  - intros k Hk. unfold ind. cbn [In]. rewrite in_app_iff. cbn [In]. rewrite in_map_iff.
    split.
    + intros [E|[(i & E & Hi)|[E|[]]]]; [lia| |lia]. apply W in Hi. destruct Hi as (_ & Hi).
      replace (i + 2)%Z with (k + 1)%Z in Hi by lia. replace (i + 1)%Z with k in Hi by lia.
      replace i with (k - 1)%Z in Hi by lia. exact Hi.
    + intros Hv. right. left. exists (k - 1)%Z. split; [lia|]. apply W. split; [lia|].
      replace (k - 1 + 2)%Z with (k + 1)%Z by lia. replace (k - 1 + 1)%Z with k by lia. exact Hv.
Qed.
Lemma at_point x i : (0 <= i < plen x)%Z -> point x i = Some (at_ x i).
Proof. intros H. unfold at_. destruct (point_some x i H) as (v & ->). reflexivity. Qed.
Lemma plain_start p x : (1 <= plen x)%Z -> a_start (make_plain p x) = Ok (at_ x 0).
Proof. intros H. unfold a_start, make_plain. cbn [a_form a_values]. apply py_get_point; [lia|]. apply at_point. lia. Qed.
Lemma plain_end p x : (1 <= plen x)%Z -> a_end (make_plain p x) = Ok (at_ x (plen x - 1)).
Proof.
  intros H. unfold a_end, make_plain. cbn [a_form a_values]. apply py_get_point_neg; [lia|].
  replace (-1 + plen x)%Z with (plen x - 1)%Z by lia. apply at_point. lia.
Qed.

(* simplify on an equidistant axis *)
Lemma simplify_prog p x s d n : 0 <= p -> (2 <= n)%Z -> progression x s d n ->
  simplify (make_plain p x) = Ok (Axis (Regular s (s + Qc_of_Z (n - 1) * d) d n) x p).
Proof.
  intros Hp Hn P. pose proof (prog_eq _ _ _ _ P) as Ex. destruct P as (L & P).
  change (plen x = n) in L.
  assert (A0 : at_ x 0 = s). { unfold at_. rewrite P by lia. change (Qc_of_Z 0) with 0. ring. }
  assert (A1 : at_ x (n - 1) = s + Qc_of_Z (n - 1) * d). { unfold at_. rewrite P by lia. reflexivity. }
  assert (R : make_regular p s (s + Qc_of_Z (n - 1) * d) (n - 1) = Ok (Axis (Regular s (s + Qc_of_Z (n - 1) * d) d n) x p)).
  { unfold make_regular. replace (n - 1 + 1)%Z with n by lia. destruct (Z.eqb_spec n 1); [lia|].
    pose proof (Qc_of_Z_nz (n - 1) ltac:(lia)) as Nz.
    assert (Ed : (s + Qc_of_Z (n - 1) * d - s) / Qc_of_Z (n - 1) = d) by (field; exact Nz).
    rewrite linspace_map by lia. rewrite Ed. cbn [bind]. rewrite <- Ex. reflexivity. }
  unfold simplify. unfold a_size. cbn [a_form make_plain a_values a_precision].
  change (Z.of_nat (length x)) with (plen x). rewrite L.
  destruct (Z.eqb_spec n 1); [lia|].
  destruct (Z.eqb_spec n 2) as [->|N2].
  - fold (make_plain p x). rewrite plain_start, plain_end by lia. rewrite L. cbn [bind]. rewrite A0, A1. exact R.
  - destruct (qmax_ok (map Qc_abs (diff (diff x)))) as (m & Em & Hm).
    { rewrite Ex. rewrite diff2_arange by lia. intros E. apply (f_equal (@length _)) in E.
      rewrite !map_length in E. pose proof (plen_arange (n - 2) ltac:(lia)) as Q. unfold plen in Q. cbn in E. lia. }
    rewrite Em. cbn [bind]. replace (Qc_leb m p) with true.
    + fold (make_plain p x). rewrite plain_start, plain_end by lia. rewrite L. cbn [bind]. rewrite A0, A1. exact R.
    + symmetry. apply Qc_leb_le. apply Hm. rewrite Ex. rewrite diff2_arange by lia.
      apply Forall_map, Forall_map, Forall_forall. intros i _.
      replace (_ - _) with 0; [rewrite Qc_abs_0; exact Hp|].
      rewrite !Qc_of_Z_plus. change (Qc_of_Z 2) with (1 + 1). change (Qc_of_Z 1) with 1. ring.
Qed.

(* simplify keeps every point when the precision is zero *)
Lemma simplify_exact x : x <> [] -> exists b, simplify (make_plain 0 x) = Ok b /\ a_values b = x /\ a_precision b = 0.
Proof.
  intros N. assert (L1 : (1 <= plen x)%Z). { destruct x; [congruence|]. unfold plen. cbn [length]. lia. }
  destruct (Z.eq_dec (plen x) 1) as [E1|N1].
  - destruct x as [|a [|b x]]; [congruence| |unfold plen in E1; cbn [length] in E1; lia].
    exists (make_number 0 a). split; [reflexivity|]. split; reflexivity.
  - destruct (Z.eq_dec (plen x) 2) as [E2|N2].
    + destruct x as [|a [|b [|c x]]]; try (unfold plen in E2; cbn [length] in E2; lia).
      eexists. split.
      * apply (simplify_prog 0 [a; b] a (b - a) 2); [apply Qcle_refl|lia|]. split; [reflexivity|].
        intros i Hi. assert (i = 0 \/ i = 1)%Z as [-> | ->] by lia.
        -- change (point [a; b] 0) with (Some a). f_equal. change (Qc_of_Z 0) with 0. ring.
        -- change (point [a; b] 1) with (Some b). f_equal. change (Qc_of_Z 1) with 1. ring.
      * split; reflexivity.
    + assert (L3 : (3 <= plen x)%Z) by lia.
      pose proof (breaks_spec x 0 L3) as BS. cbv zeta in BS. destruct BS as (S & F & M).
      set (d := map Qc_abs (diff (diff x))) in *.
      set (ind := (0 :: map (fun i => i + 1) (where_gt 0 0 d) ++ [plen x - 1])%Z) in *.
      assert (Nd : d <> []).
      { unfold d. rewrite (sampled x). rewrite diff2_arange by lia. intros E. apply (f_equal (@length _)) in E.
        rewrite !map_length in E. pose proof (plen_arange (plen x - 2) ltac:(lia)) as Q. unfold plen in *. cbn in E. lia. }
      destruct (qmax_ok d Nd) as (m & Em & Hm).
      destruct (Qc_leb m 0) eqn:Eb.
      * qc_bool. apply Hm in Eb.
        assert (Z2 : forall k, (0 < k < plen x - 1)%Z -> at_ x (k + 1) - at_ x k = at_ x k - at_ x (k - 1)).
        { intros k Hk. assert (In (Qc_abs ((at_ x (k + 1) - at_ x k) - (at_ x k - at_ x (k - 1)))) d) as Hin.
          { unfold d. rewrite (sampled x) at 5. rewrite diff2_arange by lia. rewrite map_map. apply in_map_iff.
            exists (k - 1)%Z. split; [|apply In_arange; lia].
            replace (k - 1 + 2)%Z with (k + 1)%Z by lia. replace (k - 1 + 1)%Z with k by lia. reflexivity. }
          rewrite Forall_forall in Eb. specialize (Eb _ Hin). apply Qc_abs_le0 in Eb. clear - Eb. qclra. }
        assert (Lin := linear_between (at_ x) 0 (plen x - 1) ltac:(lia) Z2).
        set (dd := (at_ x (plen x - 1) - at_ x 0) / Qc_of_Z (plen x - 1 - 0)) in *.
        eexists. split.
        -- apply (simplify_prog 0 x (at_ x 0) dd (plen x)); [apply Qcle_refl|lia|]. split; [reflexivity|].
           intros i Hi. rewrite at_point by exact Hi. f_equal. specialize (Lin i ltac:(lia)). rewrite Z.add_0_l in Lin.
           rewrite Lin. clearbody dd. ring.
        -- split; reflexivity.
      * assert (Es : simplify (make_plain 0 x) =
          (if (3 * (Z.of_nat (length ind) - 1) <? plen x)%Z then
             let! limits := mapM (py_get x) ind in make_segments 0 limits (zdiff ind)
           else Ok (make_plain 0 x))).
        { unfold simplify. unfold a_size. cbn [a_form make_plain a_values a_precision].
          change (Z.of_nat (length x)) with (plen x).
          destruct (Z.eqb_spec (plen x) 1); [lia|]. destruct (Z.eqb_spec (plen x) 2); [lia|].
          fold d. rewrite Em. cbn [bind]. rewrite Eb. reflexivity. }
        rewrite Es. destruct (3 * (Z.of_nat (length ind) - 1) <? plen x)%Z; [|exists (make_plain 0 x); auto].
        rewrite mapM_get by exact F. cbn [bind].
        assert (SL : seglin (at_ x) ind).
        { apply seglin_of; [exact S|]. intros i j k Hi Hj Hk Nk.
          rewrite Forall_forall in F. pose proof (F i Hi). pose proof (F j Hj).
          rewrite M in Nk by lia. apply Qcnot_lt_le in Nk. apply Qc_abs_le0 in Nk. clear - Nk. qclra. }
        unfold make_segments.
        assert (Lz : forall l : list Z, l <> [] -> length (zdiff l) = (length l - 1)%nat).
        { clear. induction l as [|a l IH]; [congruence|]. intros _. destruct l as [|b l]; [reflexivity|].
          change (zdiff (a :: b :: l)) with ((b - a)%Z :: zdiff (b :: l)). cbn [length].
          rewrite IH by discriminate. cbn [length]. lia. }
        assert (Li : (length ind >= 2)%nat).
        { unfold ind. cbn [length]. rewrite app_length. cbn [length]. lia. }
        rewrite map_length, Lz by discriminate.
        replace (length ind - 1 + 1)%nat with (length ind) by lia. rewrite Nat.eqb_refl. cbn [negb].
        destruct (zdiff ind) as [|z zs] eqn:Ez.
        { exfalso. pose proof (Lz ind ltac:(discriminate)) as Q. rewrite Ez in Q. cbn [length] in Q. clear - Q Li. lia. }
        rewrite <- Ez.
        destruct (seg_values (at_ x) (map (fun i => i + 1)%Z (where_gt 0 0 d) ++ [(plen x - 1)%Z]) 0 S SL) as (st & Eg).
        fold ind in Eg. rewrite Eg. cbn [bind]. eexists. split; [reflexivity|]. split; [|reflexivity]. cbn [a_values].
        replace (last ind 0%Z) with (plen x - 1)%Z.
        2:{ unfold ind. change (0%Z :: ?l ++ ?m) with ((0%Z :: l) ++ m). symmetry. apply last_app1. }
        replace (plen x - 1 - 0 + 1)%Z with (plen x) by lia.
        etransitivity; [|symmetry; apply sampled]. unfold irange. rewrite map_map. apply map_ext. reflexivity.
Qed.
