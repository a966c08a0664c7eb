(* Proofs about new limits, interpolation and comparison of axes: C38, C63, C64. *)
From Coq Require Import Qround Sorting.
From Verif Require Import Base BaseProofs QcTac ZList ZListProofs AxisModel AxisSpec AxisProofs AxisSegProofs.
Local Open Scope Qc_scope.

Lemma ceil_bounds (x : Qc) : let k := Qceiling (this x) in x <= Qc_of_Z k /\ Qc_of_Z k < x + 1.
Proof.
  cbv zeta. set (k := Qceiling (this x)). pose proof (Qle_ceiling (this x)) as A. pose proof (Qceiling_lt (this x)) as B.
  fold k in A, B. clearbody k. split.
  - unfold Qc_of_Z. qc2q. exact A.
  - unfold Qc_of_Z. qc2q. revert B. unfold Z.sub. rewrite inject_Z_plus. cbn [Z.opp]. change (inject_Z (-1)) with (-1)%Q. intros; lra.
Qed.
Lemma steps_to_ok x d : d <> 0 -> exists k, steps_to x d = Ok k /\ 0 <= Qc_of_Z k - x / d /\ Qc_of_Z k - x / d < 1.
Proof.
  intros N. unfold steps_to. destruct (Qc_eqb d 0) eqn:E; qc_bool; [congruence|].
  pose proof (ceil_bounds (x / d)) as (A & B). cbv zeta in *. eexists. split; [reflexivity|].
  generalize dependent (Qc_of_Z (Qceiling (this (x / d)))). generalize (x / d). intros. split; qclra.
Qed.
Lemma reg_start a s d n : regular_axis a s d n -> a_start a = Ok s /\ start_stepsize a = Ok d.
Proof.
  intros ((L & P) & Hn & Nd & F). unfold a_start, start_stepsize. destruct (a_form a) as [|s' e' d' n'|s' e' d' n'| |]; try tauto.
  - rewrite (py_get_point _ 0 (s + Qc_of_Z 0 * d)) by (try lia; apply P; lia).
    rewrite (py_get_point _ 1 (s + Qc_of_Z 1 * d)) by (try lia; apply P; lia). cbn [bind].
    split; f_equal; change (Qc_of_Z 0) with 0; [|change (Qc_of_Z 1) with 1]; ring.
  - destruct F as (-> & -> & _). auto.
  - destruct F as (-> & -> & _). auto.
Qed.
Lemma reg_end a s d n : regular_axis a s d n -> a_end a = Ok (s + Qc_of_Z (n - 1) * d) /\ end_stepsize a = Ok d.
Proof.
  intros ((L & P) & Hn & Nd & F). unfold a_end, end_stepsize. destruct (a_form a) as [|s' e' d' n'|s' e' d' n'| |]; try tauto.
  - change (plen (a_values a) = n) in L.
    rewrite (py_get_point_neg _ (-1) (s + Qc_of_Z (n - 1) * d)).
    2: lia. 2:{ rewrite L. replace (-1 + n)%Z with (n - 1)%Z by lia. apply P. lia. }
    rewrite (py_get_point_neg _ (-2) (s + Qc_of_Z (n - 2) * d)).
    2: lia. 2:{ rewrite L. replace (-2 + n)%Z with (n - 2)%Z by lia. apply P. lia. }
    cbn [bind]. split; f_equal. rewrite !Qc_of_Z_minus. change (Qc_of_Z 2) with (1 + 1). change (Qc_of_Z 1) with 1. ring.
  - destruct F as (_ & -> & _ & ->). auto.
  - destruct F as (_ & -> & _ & ->). auto.
Qed.

Lemma point_rev {A} (l : list A) i : (0 <= i < plen l)%Z -> point (rev l) i = point l (plen l - 1 - i).
Proof.
  intros H. unfold point, plen in *. destruct (Z.ltb_spec i 0); [lia|]. destruct (Z.ltb_spec (Z.of_nat (length l) - 1 - i) 0); [lia|].
  destruct (nth_error l (Z.to_nat (Z.of_nat (length l) - 1 - i))) as [a|] eqn:E.
  - rewrite (nth_error_nth' (rev l) a) by (rewrite rev_length; lia). f_equal.
    rewrite rev_nth by lia. apply nth_error_nth. rewrite <- E. f_equal. lia.
  - apply nth_error_None in E. lia.
Qed.
Lemma plen_rev {A} (l : list A) : plen (rev l) = plen l.
Proof. unfold plen. now rewrite rev_length. Qed.
Lemma plen_nonneg' {A} (l : list A) : (0 <= plen l)%Z.
Proof. unfold plen. lia. Qed.

Lemma prog_shift x s d n k : (2 <= n)%Z -> progression x s d n -> (0 < n + k)%Z ->
  progression (if (0 <? k)%Z then map (fun i => s - Qc_of_Z (i + 1) * d) (rev (arange k)) ++ x
     else if (k <? 0)%Z then py_slice x (Some (- k)%Z) None else x) (s - Qc_of_Z k * d) d (n + k).
Proof.
  intros Hn (L & P) Hk. change (plen x = n) in L. destruct (Z.ltb_spec 0 k) as [K|K]; [|destruct (Z.ltb_spec k 0) as [K'|K']].
  - assert (La : plen (rev (arange k)) = k) by (rewrite plen_rev; apply plen_arange; lia).
    split.
    + change (plen (map (fun i => s - Qc_of_Z (i + 1) * d) (rev (arange k)) ++ x) = (n + k)%Z).
      rewrite plen_app, plen_map, La, L. lia.
    + intros i Hi. rewrite point_app by lia. rewrite plen_map, La. destruct (Z.ltb_spec i k).
      * rewrite point_map, point_rev by (rewrite plen_rev in La; lia). rewrite plen_rev in La. rewrite La.
        rewrite point_arange by lia. cbn [option_map]. f_equal.
        replace (k - 1 - i + 1)%Z with (k - i)%Z by lia. rewrite Qc_of_Z_minus. ring.
      * rewrite P by lia. f_equal. rewrite Qc_of_Z_minus. ring.
  - assert (E : py_slice x (Some (- k)%Z) None = py_slice x (Some (- k)%Z) (Some (plen x))).
    { unfold py_slice, plen. rewrite (slice_bound_in _ _ (Z.of_nat (length x))) by lia. reflexivity. }
    rewrite E. split.
    + change (plen (py_slice x (Some (- k)%Z) (Some (plen x))) = (n + k)%Z). rewrite py_slice_len by lia. lia.
    + intros i Hi. rewrite py_slice_nth by lia. rewrite P by lia. f_equal. rewrite Qc_of_Z_plus, Qc_of_Z_opp. ring.
  - assert (k = 0)%Z by lia. subst k. rewrite Z.add_0_r. change (Qc_of_Z 0) with 0.
    replace (s - 0 * d) with s by ring. split; assumption.
Qed.
Lemma empty_shift x s d n k : progression x s d n -> (2 <= n)%Z -> (n + k <= 0)%Z ->
  (if (0 <? k)%Z then map (fun i => s - Qc_of_Z (i + 1) * d) (rev (arange k)) ++ x
     else if (k <? 0)%Z then py_slice x (Some (- k)%Z) None else x) = [].
Proof.
  intros (L & _) Hn Hk. destruct (Z.ltb_spec 0 k); [lia|]. destruct (Z.ltb_spec k 0); [|lia].
  unfold py_slice. rewrite L. unfold slice_bound. destruct (Z.ltb_spec (- k) 0); [lia|].
  replace (Z.to_nat (n - Z.max 0 (Z.min (- k) n))) with 0%nat by lia. reflexivity.
Qed.
Lemma prog_extend x s d n k : (2 <= n)%Z -> progression x s d n -> (0 < n + k)%Z ->
  progression (if (0 <? k)%Z then x ++ map (fun i => (s + Qc_of_Z (n - 1) * d) + Qc_of_Z (i + 1) * d) (arange k)
     else if (k <? 0)%Z then py_slice x None (Some k) else x) s d (n + k).
Proof.
  intros Hn (L & P) Hk. change (plen x = n) in L. destruct (Z.ltb_spec 0 k) as [K|K]; [|destruct (Z.ltb_spec k 0) as [K'|K']].
  - assert (La : plen (arange k) = k) by (apply plen_arange; lia).
    split.
    + change (plen (x ++ map (fun i => (s + Qc_of_Z (n - 1) * d) + Qc_of_Z (i + 1) * d) (arange k)) = (n + k)%Z).
      rewrite plen_app, plen_map, La, L. lia.
    + intros i Hi. rewrite point_app by lia. rewrite L. destruct (Z.ltb_spec i n).
      * apply P. lia.
      * rewrite point_map, point_arange by lia. cbn [option_map]. f_equal.
        replace (i - n + 1)%Z with (i - (n - 1))%Z by lia. rewrite (Qc_of_Z_minus i (n - 1)). ring.
  - assert (E : py_slice x None (Some k) = py_slice x (Some 0%Z) (Some (n + k)%Z)).
    { unfold py_slice. change (Z.of_nat (length x)) with (plen x). rewrite L.
      assert (S1 : slice_bound n n (Some k) = (n + k)%Z).
      { unfold slice_bound. destruct (Z.ltb_spec k 0); lia. }
      assert (S2 : slice_bound n n (Some (n + k)%Z) = (n + k)%Z) by (apply slice_bound_in; lia).
      assert (S3 : slice_bound n 0 (Some 0%Z) = 0%Z) by (apply slice_bound_in; lia).
      rewrite S1, S2, S3. reflexivity. }
    rewrite E. split.
    + change (plen (py_slice x (Some 0%Z) (Some (n + k)%Z)) = (n + k)%Z). rewrite py_slice_len by lia. lia.
    + intros i Hi. rewrite py_slice_nth by lia. rewrite P by lia. f_equal.
  - assert (k = 0)%Z by lia. subst k. rewrite Z.add_0_r. split; assumption.
Qed.
Lemma empty_extend x s d n k (f : Z -> Qc) : progression x s d n -> (2 <= n)%Z -> (n + k <= 0)%Z ->
  (if (0 <? k)%Z then x ++ map f (arange k) else if (k <? 0)%Z then py_slice x None (Some k) else x) = [].
Proof.
  intros (L & _) Hn Hk. destruct (Z.ltb_spec 0 k); [lia|]. destruct (Z.ltb_spec k 0); [|lia].
  unfold py_slice. rewrite L. unfold slice_bound. destruct (Z.ltb_spec k 0); [|lia].
  replace (Z.to_nat (Z.max 0 (Z.min (k + n) n) - 0)) with 0%nat by lia. reflexivity.
Qed.
Lemma from_prog x s d n : d <> 0 -> (1 <= n)%Z -> progression x s d n ->
  exists b, from_values x = Ok (Some b) /\ a_values b = x /\ ((2 <= n)%Z -> regular_axis b s d n).
Proof.
  intros Nd Hn P. assert (Nx : x <> []). { destruct P as (L & _). intros ->. cbn in L. lia. }
  unfold from_values. destruct (Z.eq_dec n 1) as [E|N].
  - destruct (simplify_exact x Nx) as (b & E1 & E2 & _). exists b. destruct x; [congruence|]. rewrite E1. cbn [bind].
    split; [reflexivity|]. split; [exact E2|]. lia.
  - pose proof (simplify_prog 0 x s d n (Qcle_refl 0) ltac:(lia) P) as E. eexists. destruct x; [congruence|]. rewrite E. cbn [bind].
    split; [reflexivity|]. split; [reflexivity|]. intros _. split; [exact P|]. split; [lia|]. split; [exact Nd|].
    cbn [a_form]. auto.
Qed.
Lemma newstart_ok a s d n v : regular_axis a s d n ->
  exists k, covers (s - Qc_of_Z k * d) v (- d) /\
    ((n + k <= 0)%Z /\ newstart a v = Ok None \/
     (0 < n + k)%Z /\ exists b, newstart a v = Ok (Some b) /\
       progression (a_values b) (s - Qc_of_Z k * d) d (n + k) /\
       ((2 <= n + k)%Z -> regular_axis b (s - Qc_of_Z k * d) d (n + k))).
Proof.
  intros R. destruct (reg_start _ _ _ _ R) as (E1 & E2). pose proof R as (P & Hn & Nd & _).
  destruct (steps_to_ok (s - v) d Nd) as (k & Ek & B1 & B2). exists k. split.
  - assert (Q : (s - Qc_of_Z k * d - v) / - d = Qc_of_Z k - (s - v) / d).
    { assert (- d <> 0). { intros H. apply Nd. clear - H. qclra. } field. tauto. }
    unfold covers. rewrite Q. split; assumption.
  - unfold newstart. rewrite E2, E1. cbn [bind]. rewrite Ek. cbn [bind].
    destruct (Z.lt_ge_cases 0 (n + k)) as [K|K].
    + right. split; [exact K|]. pose proof (prog_shift _ _ _ _ k Hn P K) as P'.
      assert (K1 : (1 <= n + k)%Z) by lia. destruct (from_prog _ _ _ _ Nd K1 P') as (b & Eb & Vb & Rb). exists b. split; [exact Eb|].
      split; [rewrite Vb; exact P'|exact Rb].
    + left. split; [lia|]. rewrite (empty_shift _ _ _ _ _ P) by lia. reflexivity.
Qed.
Lemma newend_ok a s d n v : regular_axis a s d n ->
  exists k, covers (s + Qc_of_Z (n + k - 1) * d) v d /\
    ((n + k <= 0)%Z /\ newend a v = Ok None \/
     (0 < n + k)%Z /\ exists b, newend a v = Ok (Some b) /\
       progression (a_values b) s d (n + k) /\
       ((2 <= n + k)%Z -> regular_axis b s d (n + k))).
Proof.
  intros R. destruct (reg_end _ _ _ _ R) as (E1 & E2). pose proof R as (P & Hn & Nd & _).
  destruct (steps_to_ok (v - (s + Qc_of_Z (n - 1) * d)) d Nd) as (k & Ek & B1 & B2). exists k. split.
  - assert (Q : (s + Qc_of_Z (n + k - 1) * d - v) / d = Qc_of_Z k - (v - (s + Qc_of_Z (n - 1) * d)) / d).
    { replace (n + k - 1)%Z with ((n - 1) + k)%Z by lia. rewrite (Qc_of_Z_plus (n - 1) k). field. exact Nd. }
    unfold covers. rewrite Q. split; assumption.
  - unfold newend. rewrite E2, E1. cbn [bind]. rewrite Ek. cbn [bind].
    destruct (Z.lt_ge_cases 0 (n + k)) as [K|K].
    + right. split; [exact K|]. pose proof (prog_extend _ _ _ _ k Hn P K) as P'.
      assert (K1 : (1 <= n + k)%Z) by lia. destruct (from_prog _ _ _ _ Nd K1 P') as (b & Eb & Vb & Rb). exists b. split; [exact Eb|].
      split; [rewrite Vb; exact P'|exact Rb].
    + left. split; [lia|]. rewrite (empty_extend _ _ _ _ _ _ P) by lia. reflexivity.
Qed.
(* both limits, as long as moving the start leaves two points *)
Lemma newlimits_ok a s d n v w : regular_axis a s d n -> (v - (s + Qc_of_Z (n - 1) * d)) / d < 0 ->
  exists k m, covers (s - Qc_of_Z k * d) v (- d) /\ covers (s + Qc_of_Z (m - k - 1) * d) w d /\
    ((m <= 0)%Z /\ newlimits a v w = Ok None \/
     (0 < m)%Z /\ exists b, newlimits a v w = Ok (Some b) /\ progression (a_values b) (s - Qc_of_Z k * d) d m /\
       forall i, (0 <= i < n)%Z -> (0 <= i + k < m)%Z -> point (a_values b) (i + k) = point (a_values a) i).
Proof.
  intros R Hv. pose proof R as ((_ & Pa) & Hn & Nd & _).
  destruct (newstart_ok a s d n v R) as (k & C1 & H).
  assert (K : (2 <= n + k)%Z).
  { destruct C1 as (C1 & C1'). assert (Q : (s - Qc_of_Z k * d - v) / - d = (v - s) / d + Qc_of_Z k).
    { assert (- d <> 0). { intros H'. apply Nd. clear - H'. qclra. } field. tauto. }
    rewrite Q in C1. assert (Q2 : (v - (s + Qc_of_Z (n - 1) * d)) / d = (v - s) / d - Qc_of_Z (n - 1)) by (field; exact Nd).
    rewrite Q2 in Hv. assert (G : Qc_of_Z (- k) < Qc_of_Z (n - 1)).
    { rewrite Qc_of_Z_opp. revert C1 Hv. generalize ((v - s) / d) (Qc_of_Z k) (Qc_of_Z (n - 1)). clear. intros. qclra. }
    pose proof (proj1 (Qc_of_Z_lt (- k) (n - 1)) G). lia. }
  destruct H as [(A & _)|(_ & b & Eb & Pb & Rb)]; [lia|]. specialize (Rb K).
  destruct (newend_ok b _ d (n + k) w Rb) as (j & C2 & H2). exists k, (n + k + j)%Z.
  split; [exact C1|]. split.
  - replace (n + k + j - k - 1)%Z with ((n + k + j - 1) - k)%Z by lia. rewrite (Qc_of_Z_minus (n + k + j - 1) k).
    replace (s + (Qc_of_Z (n + k + j - 1) - Qc_of_Z k) * d) with (s - Qc_of_Z k * d + Qc_of_Z (n + k + j - 1) * d) by ring. exact C2.
  - unfold newlimits. rewrite Eb. cbn [bind]. destruct H2 as [(A & E2)|(A & c & E2 & Pc & _)]; [left; split; assumption|].
    right. split; [exact A|]. exists c. split; [exact E2|]. split; [exact Pc|]. intros i Hi Hi2.
    destruct Pc as (_ & Pc). rewrite Pc by lia. rewrite Pa by lia. f_equal. rewrite Qc_of_Z_plus. ring.
Qed.

(* --- C63: what simplification keeps at any precision --- *)
Lemma nth_error_at f (ind : list Z) j i : nth_error ind j = Some i -> nth_error (map f ind) j = Some (f i : Qc).
Proof. intros H. rewrite nth_error_map, H. reflexivity. Qed.
Lemma zdiff_length (l : list Z) : l <> [] -> length (zdiff l) = (length l - 1)%nat.
Proof.
  induction l as [|a l IH]; [congruence|]. intros _. destruct l as [|b l]; [reflexivity|].
  change (zdiff (a :: b :: l)) with ((b - a)%Z :: zdiff (b :: l)). cbn [length]. rewrite IH by discriminate. cbn [length]. lia.
Qed.
Lemma zdiff_pos (l : list Z) : StronglySorted Z.lt l -> Forall (fun n => 1 <= n)%Z (zdiff l).
Proof.
  induction l as [|a l IH]; intros S; [constructor|]. destruct l as [|b l]; [constructor|].
  inversion S as [|? ? S' F]; subst. change (zdiff (a :: b :: l)) with ((b - a)%Z :: zdiff (b :: l)).
  constructor; [inversion F; subst; lia|]. now apply IH.
Qed.
Lemma zdiff_sum (l : list Z) : forall a, zsum (zdiff (a :: l)) = (last (a :: l) 0 - a)%Z.
Proof.
  induction l as [|b l IH]; intros a; [cbn; lia|].
  change (zdiff (a :: b :: l)) with ((b - a)%Z :: zdiff (b :: l)). cbn [zsum]. rewrite IH.
  change (last (a :: b :: l) 0%Z) with (last (b :: l) 0%Z). lia.
Qed.
Lemma zdiff_before (l : list Z) : forall a j i, nth_error (a :: l) j = Some i -> before (zdiff (a :: l)) j = (i - a)%Z.
Proof.
  induction l as [|b l IH]; intros a j i H.
  - destruct j as [|[|j]]; cbn in H; try discriminate. injection H as <-. unfold before. cbn. lia.
  - destruct j as [|j]; [cbn in H; injection H as <-; unfold before; cbn; lia|].
    change (zdiff (a :: b :: l)) with ((b - a)%Z :: zdiff (b :: l)). unfold before. cbn [firstn zsum].
    cbn [nth_error] in H. specialize (IH b j i H). unfold before in IH. rewrite IH. lia.
Qed.
Lemma zdiff_nth (l : list Z) : forall j a b, nth_error l j = Some a -> nth_error l (S j) = Some b ->
  nth_error (zdiff l) j = Some (b - a)%Z.
Proof.
  induction l as [|x l IH]; intros j a b H1 H2; [destruct j; discriminate|].
  destruct l as [|y l]; [destruct j; cbn in H2; try discriminate; destruct j; discriminate|].
  change (zdiff (x :: y :: l)) with ((y - x)%Z :: zdiff (y :: l)).
  destruct j as [|j]; [cbn in *; congruence|]. cbn [nth_error] in *. now apply (IH j a b).
Qed.
(* the segments built at break points ind: each break point keeps its value *)
Lemma seg_breaks p x ind : StronglySorted Z.lt ind -> Forall (fun i => 0 <= i < plen x)%Z ind -> (2 <= length ind)%nat ->
  exists st vs, make_segments p (map (at_ x) ind) (zdiff ind) = Ok (Axis (Segments (map (at_ x) ind) (zdiff ind) st) vs p) /\
    plen vs = (last ind 0 - hd 0 ind + 1)%Z /\
    forall i, In i ind -> point vs (i - hd 0%Z ind) = point x i.
Proof.
  intros S F L. destruct (segments_ok p (map (at_ x) ind) (zdiff ind)) as (st & vs & E & _ & Lv & H).
  - intros E. pose proof (zdiff_length ind) as Q. rewrite E in Q. destruct ind; [cbn in L; lia|].
    specialize (Q ltac:(discriminate)). cbn [length] in *. lia.
  - rewrite map_length, zdiff_length; [lia|]. intros ->. cbn in L. lia.
  - apply zdiff_pos, S.
  - exists st, vs. split; [exact E|]. destruct ind as [|i0 ind]; [cbn in L; lia|]. cbn [hd]. split.
    + rewrite Lv. rewrite zdiff_sum. reflexivity.
    + intros i Hi. apply In_nth_error in Hi. destruct Hi as (j & Hj).
      assert (Hx : point x i = Some (at_ x i)).
      { apply at_point. rewrite Forall_forall in F. apply F. now apply nth_error_In in Hj. }
      rewrite Hx. destruct (nth_error (i0 :: ind) (Datatypes.S j)) as [i'|] eqn:Ej.
      * pose proof (zdiff_nth _ _ _ _ Hj Ej) as Hn.
        destruct (H j _ _ _ Hn (nth_error_at _ _ _ _ Hj) (nth_error_at _ _ _ _ Ej)) as (d & _ & _ & G).
        assert (Hp : (1 <= i' - i)%Z). { pose proof (zdiff_pos _ S) as Q. rewrite Forall_forall in Q. apply Q. apply nth_error_In in Hn. exact Hn. }
        specialize (G 0%Z ltac:(lia)). rewrite (zdiff_before _ _ _ _ Hj) in G. rewrite Z.add_0_r in G. rewrite G.
        f_equal. change (Qc_of_Z 0) with 0. ring.
      * destruct j as [|j]; [apply nth_error_None in Ej; cbn [length] in *; lia|].
        destruct (nth_error (i0 :: ind) j) as [i'|] eqn:Ei'.
        2:{ apply nth_error_None in Ei'. assert (nth_error (i0 :: ind) (Datatypes.S j) <> None) as Q by congruence.
            apply nth_error_Some in Q. lia. }
        pose proof (zdiff_nth _ _ _ _ Ei' Hj) as Hn.
        destruct (H j _ _ _ Hn (nth_error_at _ _ _ _ Ei') (nth_error_at _ _ _ _ Hj)) as (d & _ & Ed & G).
        assert (Hp : (1 <= i - i')%Z). { pose proof (zdiff_pos _ S) as Q. rewrite Forall_forall in Q. apply Q. apply nth_error_In in Hn. exact Hn. }
        specialize (G (i - i')%Z ltac:(lia)). rewrite (zdiff_before _ _ _ _ Ei') in G.
        replace (i' - i0 + (i - i'))%Z with (i - i0)%Z in G by lia. rewrite G. f_equal. rewrite Ed.
        pose proof (Qc_of_Z_nz (i - i') ltac:(lia)). field. assumption.
Qed.
Lemma simplify_shape p x : x <> [] -> exists b, simplify (make_plain p x) = Ok b /\ a_precision b = p /\
  plen (a_values b) = plen x /\ a_size b = plen x /\ point (a_values b) 0 = point x 0 /\
  point (a_values b) (plen x - 1) = point x (plen x - 1).
Proof.
  intros N. assert (L1 : (1 <= plen x)%Z). { destruct x; [congruence|]. unfold plen. cbn [length]. lia. }
  destruct (Z.eq_dec (plen x) 1) as [E1|N1].
  - destruct x as [|a [|b x]]; [congruence| |unfold plen in E1; cbn [length] in E1; lia].
    exists (make_number p a). repeat split; reflexivity.
  - assert (RG : forall b, make_regular p (at_ x 0) (at_ x (plen x - 1)) (plen x - 1) = Ok b ->
      a_precision b = p /\ plen (a_values b) = plen x /\ a_size b = plen x /\ point (a_values b) 0 = point x 0 /\
      point (a_values b) (plen x - 1) = point x (plen x - 1)).
    { intros b Eb. destruct (make_regular_form p (at_ x 0) (at_ x (plen x - 1)) (plen x - 1) ltac:(lia)) as (b' & E' & Pb & F & P & Q).
      rewrite E' in Eb. injection Eb as <-. replace (plen x - 1 + 1)%Z with (plen x) in * by lia. destruct P as (Lb & P).
      split; [exact Pb|]. split; [exact Lb|]. split; [unfold a_size; rewrite F; reflexivity|]. split.
      - rewrite P by lia. rewrite at_point by lia. f_equal. change (Qc_of_Z 0) with 0. ring.
      - rewrite P by lia. rewrite <- Q. rewrite at_point by lia. reflexivity. }
    destruct (make_regular_form p (at_ x 0) (at_ x (plen x - 1)) (plen x - 1) ltac:(lia)) as (b' & E' & _).
    unfold simplify. change (a_size (make_plain p x)) with (plen x). cbn [a_form make_plain a_values a_precision].
    destruct (Z.eqb_spec (plen x) 1); [lia|]. destruct (Z.eqb_spec (plen x) 2) as [E2|N2].
    + fold (make_plain p x). rewrite plain_start, plain_end by lia. cbn [bind].
      assert (Q1 : (plen x - 1 = 1)%Z) by lia. exists b'. split; [rewrite <- E', Q1; reflexivity|]. apply RG, E'.
    + assert (L3 : (3 <= plen x)%Z) by lia.
      pose proof (breaks_spec x p L3) as BS. cbv zeta in BS. destruct BS as (S & F & _).
      set (d := map Qc_abs (diff (diff x))) in *.
      set (ind := (0 :: map (fun i => i + 1) (where_gt p 0 d) ++ [plen x - 1])%Z) in *.
      assert (Nd : d <> []).
      { unfold d. rewrite (sampled x). rewrite diff2_arange by lia. intros E. apply (f_equal (@length _)) in E.
        rewrite !map_length in E. pose proof (plen_arange (plen x - 2) ltac:(lia)) as Q. unfold plen in *. cbn in E. lia. }
      destruct (qmax_ok d Nd) as (m & Em & _). rewrite Em. cbn [bind].
      destruct (Qc_leb m p).
      * fold (make_plain p x). rewrite plain_start, plain_end by lia. cbn [bind]. exists b'. split; [exact E'|]. apply RG, E'.
      * fold (make_plain p x).
        destruct (3 * (Z.of_nat (length ind) - 1) <? plen x)%Z.
        2:{ exists (make_plain p x). repeat split; reflexivity. }
        rewrite mapM_get by exact F. cbn [bind].
        assert (Li : (2 <= length ind)%nat). { unfold ind. cbn [length]. rewrite app_length. cbn [length]. lia. }
        destruct (seg_breaks p x ind S F Li) as (st & vs & E & Lv & H). rewrite E.
        assert (Lst : last ind 0%Z = (plen x - 1)%Z).
        { unfold ind. change (0%Z :: ?l ++ ?m) with ((0%Z :: l) ++ m). apply last_app1. }
        assert (Hd : hd 0%Z ind = 0%Z) by reflexivity. rewrite Lst, Hd in *.
        eexists. split; [reflexivity|]. cbn [a_precision a_values]. split; [reflexivity|].
        replace (plen x - 1 - 0 + 1)%Z with (plen x) in Lv by lia. split; [exact Lv|].
        split; [unfold a_size; cbn [a_form a_values]; exact Lv|]. split.
        -- rewrite <- (H 0%Z); [reflexivity|]. now left.
        -- rewrite <- (H (plen x - 1)%Z); [f_equal; lia|]. unfold ind. right. apply in_app_iff. right. now left.
Qed.

(* --- C64: comparison --- *)
Lemma absdiff_nil l : (forall a b, In (a, b) l -> is_nan a = is_nan b) ->
  (forall a b, In (a, b) l -> is_nan a = true) \/ flat_map absdiff l <> [].
Proof.
  induction l as [|[a b] l IH]; intros H; [left; intros ? ? []|].
  destruct a as [x|].
  - right. pose proof (H (Some x) b (or_introl eq_refl)) as E. destruct b as [y|]; [|discriminate].
    cbn. discriminate.
  - destruct IH as [G|G]; [intros a' b' Hi; apply H; now right| |].
    + left. intros a' b' [E|Hi]; [injection E as <- _; reflexivity|]. apply (G a' b' Hi).
    + right. cbn [flat_map absdiff]. destruct b; cbn [app]; exact G.
Qed.
Lemma combine_fst {A B} (l : list A) : forall (l' : list B), length l = length l' -> map fst (combine l l') = l.
Proof.
  induction l as [|a l IH]; intros [|b l'] H; cbn in *; try lia; [reflexivity|]. f_equal. apply IH. lia.
Qed.
Lemma Forall2_combine {A B} (R : A -> B -> Prop) l : forall l', Forall2 R l l' <->
  length l = length l' /\ (forall a b, In (a, b) (combine l l') -> R a b).
Proof.
  induction l as [|a l IH]; intros [|b l'].
  - split; [intros _; split; [reflexivity|intros ? ? []]|intros _; constructor].
  - split; [intros H; inversion H|intros [H _]; discriminate].
  - split; [intros H; inversion H|intros [H _]; discriminate].
  - split.
    + intros H. inversion H as [|? ? ? ? H1 H2]; subst. apply IH in H2. destruct H2 as (E & H2). split; [cbn; lia|].
      intros x y [E'|Hi]; [injection E' as <- <-; exact H1|auto].
    + intros [E H]. cbn in E. constructor; [apply H; now left|]. apply IH. split; [lia|]. intros x y Hi. apply H. now right.
Qed.
Lemma axis_eq_spec p v w : exists b, axis_eq p v w = Ok b /\ (b = true <-> Forall2 (same_point p) v w).
Proof.
  cut (exists b, axis_eq p v w = Ok b /\ (b = true <->
    length v = length w /\ (forall a b, In (a, b) (combine v w) -> same_point p a b))).
  { intros (b & E & H). exists b. rewrite Forall2_combine. auto. }
  unfold axis_eq. destruct (Nat.eqb_spec (length v) (length w)) as [L|L]; cbn [negb].
  2:{ exists false. split; [reflexivity|]. split; [discriminate|]. intros (E & _). congruence. }
  destruct (forallb _ (combine v w)) eqn:E1; cbn [negb].
  - rewrite forallb_forall in E1.
    assert (M : forall a b, In (a, b) (combine v w) -> is_nan a = is_nan b).
    { intros a b Hi. specialize (E1 _ Hi). now apply Bool.eqb_prop in E1. }
    destruct (forallb is_nan v) eqn:E2.
    + exists true. split; [reflexivity|]. split; [|reflexivity]. intros _. split; [exact L|]. intros a b Hi.
      pose proof (M a b Hi) as Eab. rewrite forallb_forall in E2. apply in_combine_l in Hi as Ha. specialize (E2 a Ha).
      destruct a; [discriminate|]. destruct b; [discriminate|exact I].
    + destruct (absdiff_nil (combine v w) M) as [G|G].
      * exfalso. assert (forallb is_nan v = true); [|congruence]. apply forallb_forall. intros a Ha.
        rewrite <- (combine_fst v w L) in Ha. apply in_map_iff in Ha. destruct Ha as ((a' & b') & <- & Hi). apply (G a' b' Hi).
      * destruct (qmax_ok _ G) as (m & Em & Hm). rewrite Em. cbn [bind]. exists (Qc_leb m p). split; [reflexivity|].
        rewrite Qc_leb_le, Hm, Forall_forall. split.
        -- intros H. split; [exact L|]. intros a b Hi. pose proof (M a b Hi) as Eab. destruct a as [x|], b as [y|]; try discriminate; [|exact I].
           cbn. apply H. apply in_flat_map. exists (Some x, Some y). split; [exact Hi|]. now left.
        -- intros (_ & H) z Hz. apply in_flat_map in Hz. destruct Hz as ((a & b) & Hi & Hz). specialize (H a b Hi).
           destruct a as [x|], b as [y|]; cbn in Hz; try tauto. destruct Hz as [<-|[]]. exact H.
  - exists false. split; [reflexivity|]. split; [discriminate|]. intros (_ & H). exfalso.
    assert (X : forallb (fun xy => Bool.eqb (is_nan (fst xy)) (is_nan (snd xy))) (combine v w) = true); [|congruence].
    apply forallb_forall. intros (a & b) Hi. specialize (H a b Hi). destruct a, b; cbn in *; tauto.
Qed.
(* --- C65: interpolation --- *)
Lemma point_lt_some {A} (l : list A) i j : (i < j)%Z -> (0 <= i)%Z -> (j < plen l)%Z -> exists a b, point l i = Some a /\ point l j = Some b.
Proof.
  intros. destruct (point_some l i) as (a & ?); [lia|]. destruct (point_some l j) as (b & ?); [lia|]. eauto.
Qed.
Lemma interpolate_ok arr new : monotonic arr -> (2 <= plen arr)%Z ->
  exists g, interpolate arr new = Ok (map g arr, map g (match new with None => arr | Some l => l end)) /\
    increasing (map g arr) /\ forall x y, Qc_abs (g x - g y) = Qc_abs (x - y).
Proof.
  intros M L. destruct (point_lt_some arr 0 1 ltac:(lia) ltac:(lia) ltac:(lia)) as (x0 & x1 & P0 & P1).
  unfold interpolate. rewrite (py_get_point arr 1 x1), (py_get_point arr 0 x0) by (try lia; assumption). cbn [bind].
  destruct (Qc_ltb x1 x0) eqn:E; qc_bool.
  - assert (Na : arr <> []) by (intros ->; cbn in L; lia). destruct (qmax_ok arr Na) as (m & Em & _). rewrite Em. cbn [bind].
    exists (fun x => m - x). split; [destruct new; reflexivity|]. split.
    + intros i j a b Hij Ha Hb. rewrite point_map in Ha, Hb.
      destruct (point arr i) as [a'|] eqn:Ea; [|discriminate]. destruct (point arr j) as [b'|] eqn:Eb; [|discriminate].
      cbn [option_map] in Ha, Hb. apply some_inj in Ha, Hb. subst a b.
      destruct M as [M|M]; [exfalso; specialize (M 0%Z 1%Z _ _ ltac:(lia) P0 P1); clear - M E; qclra|].
      specialize (M i j _ _ Hij Ea Eb). clear - M. qclra.
    + intros x y. replace (m - x - (m - y)) with (- (x - y)) by ring.
      unfold Qc_abs. destruct (Qc_leb 0 (- (x - y))) eqn:E1; destruct (Qc_leb 0 (x - y)) eqn:E2; qc_bool; qclra.
  - cbn [bind]. exists (fun x => x). rewrite map_id. split; [destruct new; rewrite ?map_id; reflexivity|]. split; [|reflexivity].
    destruct M as [M|M]; [exact M|]. exfalso. specialize (M 0%Z 1%Z _ _ ltac:(lia) P0 P1). clear - M E. qclra.
Qed.
(* similarity of strings *)
Lemma closest_ratio_spec l : forall best bi k,
  let r := closest_ratio_from best bi k l in
  (r = bi /\ (forall i y, point l i = Some y -> y <= best)) \/
  (exists x, point l (r - k) = Some x /\ (0 <= r - k)%Z /\ best < x /\
    (forall i y, point l i = Some y -> y <= x) /\
    (forall i y, (i < r - k)%Z -> point l i = Some y -> y < x)).
Proof.
  intros best bi k.
  assert (G : forall l best bi k, closest_ratio_from best bi k l = argmin_from (- best) bi k (map Qcopp l)).
  { clear. induction l as [|a l IH]; intros best bi k; [reflexivity|]. cbn [closest_ratio_from map argmin_from].
    replace (Qc_ltb (- a) (- best)) with (Qc_ltb best a).
    - destruct (Qc_ltb best a); apply IH.
    - destruct (Qc_ltb best a) eqn:E1; destruct (Qc_ltb (- a) (- best)) eqn:E2; qc_bool; try reflexivity; exfalso; qclra. }
  cbv zeta. rewrite G. pose proof (argmin_from_spec (map Qcopp l) (- best) bi k) as H. cbv zeta in H.
  set (r := argmin_from (- best) bi k (map Qcopp l)) in *.
  assert (PM : forall i y, point l i = Some y -> point (map Qcopp l) i = Some (- y)).
  { intros i y Hy. rewrite point_map, Hy. reflexivity. }
  destruct H as [(E & H)|(x & Px & R & B & H1 & H2)].
  - left. split; [exact E|]. intros i y Hy. specialize (H i _ (PM i y Hy)). clear - H. qclra.
  - right. rewrite point_map in Px. destruct (point l (r - k)) as [x'|] eqn:Ex; [|discriminate].
    cbn [option_map] in Px. apply some_inj in Px. subst x. exists x'. split; [reflexivity|]. split; [exact R|]. split; [clear - B; qclra|]. split.
    + intros i y Hy. specialize (H1 i _ (PM i y Hy)). clear - H1. qclra.
    + intros i y Hi Hy. specialize (H2 i _ Hi (PM i y Hy)). clear - H2. qclra.
Qed.
Lemma closest_string_ok ratios x : (exists i, point ratios i = Some x) -> 0 < x ->
  exists y, point ratios (arg_closest_string ratios) = Some y /\
    (forall i z, point ratios i = Some z -> z <= y) /\
    (forall i z, (i < arg_closest_string ratios)%Z -> point ratios i = Some z -> z < y).
Proof.
  intros (i & Hi) Hx. unfold arg_closest_string. pose proof (closest_ratio_spec ratios 0 0 0) as H. cbv zeta in H.
  set (r := closest_ratio_from 0 0 0 ratios) in *. destruct H as [(_ & H)|(y & Py & _ & _ & H1 & H2)].
  - exfalso. specialize (H i x Hi). clear - H Hx. qclra.
  - rewrite Z.sub_0_r in *. exists y. auto.
Qed.
Lemma index_from_spec {A} (eqb : A -> A -> bool) (D : decides_eq eqb) v l : forall k,
  (In v l -> exists i, index_from eqb v k l = Ok (k + i)%Z /\ point l i = Some v /\ forall j, (j < i)%Z -> point l j <> Some v) /\
  (~ In v l -> index_from eqb v k l = Err ValueError).
Proof.
  induction l as [|a l IH]; intros k; cbn [index_from].
  - split; [intros []|reflexivity].
  - destruct (eqb a v) eqn:E.
    + apply D in E. subst a. split; [|intros H; exfalso; apply H; now left]. intros _. exists 0%Z. split; [f_equal; lia|].
      split; [reflexivity|]. intros j Hj. unfold point. destruct (Z.ltb_spec j 0); [discriminate|lia].
    + assert (N : a <> v). { intros ->. assert (eqb v v = true) by now apply D. congruence. }
      destruct (IH (k + 1)%Z) as (H1 & H2). split.
      * intros [H|H]; [congruence|]. destruct (H1 H) as (i & Ei & Pi & Fi). exists (i + 1)%Z. split; [rewrite Ei; f_equal; lia|].
        assert (Hi : (0 <= i)%Z). { unfold point in Pi. destruct (Z.ltb_spec i 0); [discriminate|lia]. }
        assert (PS : forall i, (0 <= i)%Z -> point (a :: l) (i + 1) = point l i).
        { clear. intros i Hi. unfold point. destruct (Z.ltb_spec (i + 1) 0); [lia|]. destruct (Z.ltb_spec i 0); [lia|].
          replace (Z.to_nat (i + 1)) with (S (Z.to_nat i)) by lia. reflexivity. }
        rewrite PS by exact Hi. split; [exact Pi|]. intros j Hj. destruct (Z.lt_ge_cases j 0).
        -- unfold point. destruct (Z.ltb_spec j 0); [discriminate|lia].
        -- destruct (Z.eq_dec j 0) as [->|]; [cbn; congruence|]. replace j with ((j - 1) + 1)%Z by lia. rewrite PS by lia. apply Fi. lia.
      * intros H. apply H2. intros Hi. apply H. now right.
Qed.
