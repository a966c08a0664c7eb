From Verif Require Import BaseProofs SceneModel SceneSpec.
Local Open Scope list_scope.
Local Open Scope Qc_scope.

Lemma q_min_spec l : forall x, (q_min x l = x \/ In (q_min x l) l) /\ q_min x l <= x /\ forall y, In y l -> q_min x l <= y.
Proof.
  induction l as [|a l IH]; intros x; cbn [q_min fold_left In].
  - repeat split; [now left|apply Qcle_refl|easy].
  - fold (q_min (Qc_min x a) l). destruct (IH (Qc_min x a)) as (H1 & H2 & H3).
    assert (Qc_min x a <= x /\ Qc_min x a <= a /\ (Qc_min x a = x \/ Qc_min x a = a)) as (G1 & G2 & G3).
    { unfold Qc_min. destruct (Qc_leb x a) eqn:E.
      - apply Qc_leb_le in E. repeat split; [apply Qcle_refl|exact E|now left].
      - apply Qc_leb_gt in E. repeat split; [apply Qclt_le_weak, E|apply Qcle_refl|now right]. }
    split; [|split].
    + destruct H1 as [H1|H1]; [|auto]. destruct G3 as [G3|G3]; [left; congruence|right; left; congruence].
    + eapply Qcle_trans; eassumption.
    + intros y [<- | Hy]; [eapply Qcle_trans; eassumption|auto].
Qed.
Lemma q_max_spec l : forall x, (q_max x l = x \/ In (q_max x l) l) /\ x <= q_max x l /\ forall y, In y l -> y <= q_max x l.
Proof.
  induction l as [|a l IH]; intros x; cbn [q_max fold_left In].
  - repeat split; [now left|apply Qcle_refl|easy].
  - fold (q_max (Qc_max x a) l). destruct (IH (Qc_max x a)) as (H1 & H2 & H3).
    assert (x <= Qc_max x a /\ a <= Qc_max x a /\ (Qc_max x a = x \/ Qc_max x a = a)) as (G1 & G2 & G3).
    { unfold Qc_max. destruct (Qc_leb x a) eqn:E.
      - apply Qc_leb_le in E. repeat split; [exact E|apply Qcle_refl|now right].
      - apply Qc_leb_gt in E. repeat split; [apply Qcle_refl|apply Qclt_le_weak, E|now left]. }
    split; [|split].
    + destruct H1 as [H1|H1]; [|auto]. destruct G3 as [G3|G3]; [left; congruence|right; left; congruence].
    + eapply Qcle_trans; eassumption.
    + intros y [<- | Hy]; [eapply Qcle_trans; eassumption|auto].
Qed.
Lemma extremes_unique (P R : Qc -> Prop) a b a' b' : (forall x, P x <-> R x) -> extremes P a b -> extremes R a' b' -> a = a' /\ b = b'.
Proof.
  intros E (A & B & C) (A' & B' & C'). rewrite E in A, B. pose proof (C' _ A) as [? ?]. pose proof (C' _ B) as [? ?].
  rewrite <- E in A', B'. pose proof (C _ A') as [? ?]. pose proof (C _ B') as [? ?]. split; apply Qcle_antisym; assumption.
Qed.
Lemma minmax_ok l a b : minmax l = Ok (a, b) -> extremes (fun x => In x l) a b.
Proof.
  destruct l as [|x l]; [discriminate|]. unfold minmax. intros H. assert (a = q_min x l) as -> by congruence. assert (b = q_max x l) as -> by congruence. clear H.
  destruct (q_min_spec l x) as (H1 & H2 & H3). destruct (q_max_spec l x) as (G1 & G2 & G3). repeat split.
  - destruct H1; [left; congruence|now right].
  - destruct G1; [left; congruence|now right].
  - destruct H as [<- | H]; auto.
  - destruct H as [<- | H]; auto.
Qed.
Lemma minmax_extremes l a b : extremes (fun x => In x l) a b -> minmax l = Ok (a, b).
Proof.
  intros H. destruct (minmax l) as [[a' b']|e] eqn:E.
  - apply minmax_ok in E. destruct (extremes_unique _ _ _ _ _ _ (fun x => conj (fun h => h) (fun h => h)) H E) as [-> ->]. reflexivity.
  - destruct l; [destruct H as ([] & _)|discriminate].
Qed.

(* the range of the data *)
Definition transformed (sc : scene) (k : bool) (y : Qc) : Prop := exists x, coordinate sc k x /\ y = datatransform sc k x.
Lemma datarange1_in sc k it y : In y (datarange1 sc k it) -> exists x, coordinates k it x /\ y = datatransform sc k x.
Proof.
  destruct it as [l0 l1 n0 n1|c0 c1]; cbn.
  - intros [<- | [<- | []]]; [exists (fst (if k then l1 else l0))|exists (snd (if k then l1 else l0))]; auto.
  - set (c := if k then c1 else c0). set (f := datatransform sc k).
    destruct (q_min_spec (map f (snd c)) (f (fst c))) as (H1 & _ & _). destruct (q_max_spec (map f (snd c)) (f (fst c))) as (G1 & _ & _).
    intros [<- | [<- | []]].
    + destruct H1 as [H1|H1]; [exists (fst c); auto|]. apply in_map_iff in H1 as (x & Hx & I). exists x. auto.
    + destruct G1 as [G1|G1]; [exists (fst c); auto|]. apply in_map_iff in G1 as (x & Hx & I). exists x. auto.
Qed.
Lemma datarange1_bound sc k it x : coordinates k it x ->
  exists a b, In a (datarange1 sc k it) /\ In b (datarange1 sc k it) /\ a <= datatransform sc k x /\ datatransform sc k x <= b.
Proof.
  destruct it as [l0 l1 n0 n1|c0 c1]; cbn.
  - intros H. exists (datatransform sc k x), (datatransform sc k x). destruct H as [-> | ->]; repeat split; auto; apply Qcle_refl.
  - set (c := if k then c1 else c0). set (f := datatransform sc k). intros H.
    destruct (q_min_spec (map f (snd c)) (f (fst c))) as (_ & H2 & H3). destruct (q_max_spec (map f (snd c)) (f (fst c))) as (_ & G2 & G3).
    exists (q_min (f (fst c)) (map f (snd c))), (q_max (f (fst c)) (map f (snd c))). repeat split; auto.
    + destruct H as [-> | H]; [exact H2|apply H3, in_map, H].
    + destruct H as [-> | H]; [exact G2|apply G3, in_map, H].
Qed.
Lemma datarange_ok sc k a b : datarange sc k = Ok (a, b) -> extremes (transformed sc k) a b.
Proof.
  intros H. apply minmax_ok in H as (A & B & C). repeat split.
  - apply in_flat_map in A as (it & I & A). apply datarange1_in in A as (x & X & ->). exists x. split; [exists it; auto|reflexivity].
  - apply in_flat_map in B as (it & I & B). apply datarange1_in in B as (x & X & ->). exists x. split; [exists it; auto|reflexivity].
  - destruct H as (x' & (it & I & X) & ->). destruct (datarange1_bound sc k it x' X) as (u & v & U & V & L1 & L2).
    eapply Qcle_trans; [|exact L1]. apply C. apply in_flat_map. eauto.
  - destruct H as (x' & (it & I & X) & ->). destruct (datarange1_bound sc k it x' X) as (u & v & U & V & L1 & L2).
    eapply Qcle_trans; [exact L2|]. apply C. apply in_flat_map. eauto.
Qed.
Lemma datarange_total sc k x : coordinate sc k x -> exists a b, datarange sc k = Ok (a, b).
Proof.
  intros (it & I & X). unfold datarange. destruct (flat_map (datarange1 sc k) (items sc)) eqn:E; [|cbn; eauto].
  exfalso. destruct (datarange1_bound sc k it x X) as (u & _ & U & _). assert (In u (flat_map (datarange1 sc k) (items sc))) by (apply in_flat_map; eauto).
  rewrite E in H. destruct H.
Qed.
Lemma datarange_extremes sc k a b : extremes (transformed sc k) a b -> datarange sc k = Ok (a, b).
Proof.
  intros H. destruct H as ((x & X & E) & H). destruct (datarange_total sc k x X) as (a' & b' & G). rewrite G. apply datarange_ok in G.
  assert (extremes (transformed sc k) a b) as F by (split; [exists x; auto|exact H]).
  destruct (extremes_unique _ _ _ _ _ _ (fun x => conj (fun h => h) (fun h => h)) F G) as [-> ->]. reflexivity.
Qed.
Lemma coordinate_items sc sc' k x : items sc = items sc' -> coordinate sc k x <-> coordinate sc' k x.
Proof. intros E. unfold coordinate. now rewrite E. Qed.
Lemma get_set sc k a : get_axis (set_axis sc k a) k = a.
Proof. now destruct k. Qed.
Lemma get_set_other sc k a : get_axis (set_axis sc k a) (negb k) = get_axis sc (negb k).
Proof. now destruct k. Qed.

(* ranges of scaled axes *)
Lemma range_pos sc k lo hi : extremes (coordinate sc k) lo hi -> 0 <= scaling (get_axis sc k) -> extremes (transformed sc k) (datatransform sc k lo) (datatransform sc k hi).
Proof.
  intros (A & B & C) S. split; [exists lo; auto|]. split; [exists hi; auto|]. intros y (x & X & ->). destruct (C x X) as [L1 L2]. unfold datatransform.
  set (s := scaling (get_axis sc k)) in *. set (o := offset (get_axis sc k)). clearbody s o. split; qcnra.
Qed.
Lemma range_neg sc k lo hi : extremes (coordinate sc k) lo hi -> scaling (get_axis sc k) <= 0 -> extremes (transformed sc k) (datatransform sc k hi) (datatransform sc k lo).
Proof.
  intros (A & B & C) S. split; [exists hi; auto|]. split; [exists lo; auto|]. intros y (x & X & ->). destruct (C x X) as [L1 L2]. unfold datatransform.
  set (s := scaling (get_axis sc k)) in *. set (o := offset (get_axis sc k)). clearbody s o. split; qcnra.
Qed.
Lemma setdatarange_eq sc k lo hi r : extremes (coordinate sc k) lo hi ->
  setdatarange sc k r = if Qc_eqb (hi - lo) 0 then Err not_finite else
    let s := (snd r - fst r) / (hi - lo) in Ok (set_axis sc k {| offset := s * lo - fst r; scaling := s; increasing := increasing (get_axis sc k) |}).
Proof.
  intros H. unfold setdatarange. set (sc0 := set_axis sc k _).
  assert (items sc = items sc0) as I by reflexivity.
  assert (extremes (coordinate sc0 k) lo hi) as H0.
  { destruct H as (A & B & C). split; [|split]. 1,2: now apply (coordinate_items sc sc0). intros x X. apply C. now apply (coordinate_items sc sc0). }
  assert (forall x, datatransform sc0 k x = x) as T.
  { intros x. unfold datatransform, sc0. rewrite get_set. cbn [scaling offset]. ring. }
  assert (datarange sc0 k = Ok (lo, hi)) as ->.
  { rewrite <- (T lo), <- (T hi). apply datarange_extremes, range_pos; [exact H0|]. unfold sc0. rewrite get_set. cbn. discriminate. }
  cbn [bind fst snd]. unfold q_div. destruct (Qc_eqb (hi - lo) 0); reflexivity.
Qed.

Theorem range_set sc k a b lo hi : extremes (coordinate sc k) lo hi -> lo < hi -> exists sc', setdatarange sc k (a, b) = Ok sc' /\
  datarange sc' k = Ok (if Qc_leb a b then (a, b) else (b, a)) /\ get_axis sc' (negb k) = get_axis sc (negb k) /\ items sc' = items sc /\
  forall x, x * scaling (get_axis sc' k) - offset (get_axis sc' k) = a + (x - lo) / (hi - lo) * (b - a).
Proof.
  intros H L. rewrite (setdatarange_eq _ _ _ _ _ H). destruct (Qc_eqb (hi - lo) 0) eqn:E.
  { exfalso. apply Qc_eqb_spec in E. clear H. qclra. }
  apply Qc_eqb_false in E. cbn [fst snd]. cbv zeta. set (sc' := set_axis sc k _). exists sc'. split; [reflexivity|].
  assert (forall x, datatransform sc' k x = a + (x - lo) / (hi - lo) * (b - a)) as T.
  { intros x. unfold datatransform, sc'. rewrite get_set. cbn [scaling offset]. field. exact E. }
  assert (extremes (coordinate sc' k) lo hi) as H0 by exact H.
  split; [|split; [apply get_set_other|split; [reflexivity|exact T]]].
  assert (scaling (get_axis sc' k) = (b - a) / (hi - lo)) as S by (unfold sc'; now rewrite get_set).
  assert (datatransform sc' k lo = a) as T1 by (rewrite T; field; exact E).
  assert (datatransform sc' k hi = b) as T2 by (rewrite T; field; exact E).
  assert (0 < / (hi - lo)) as P.
  { clear - L E. assert ((hi - lo) * / (hi - lo) = 1) by (apply Qcmult_inv_r; exact E). set (v := / (hi - lo)) in *. clearbody v. qcnra. }
  destruct (Qc_leb a b) eqn:F.
  - apply Qc_leb_le in F. rewrite <- T1, <- T2. rewrite T1, T2. replace (Ok (a, b)) with (@Ok (Qc*Qc) (datatransform sc' k lo, datatransform sc' k hi)) by now rewrite T1, T2.
    apply datarange_extremes, range_pos; [exact H0|]. rewrite S. unfold Qcdiv. clear - P F. set (v := / (hi - lo)) in *. clearbody v. qcnra.
  - apply Qc_leb_gt in F. replace (Ok (b, a)) with (@Ok (Qc*Qc) (datatransform sc' k hi, datatransform sc' k lo)) by now rewrite T1, T2.
    apply datarange_extremes, range_neg; [exact H0|]. rewrite S. unfold Qcdiv. clear - P F. set (v := / (hi - lo)) in *. clearbody v. qcnra.
Qed.
Theorem range_set_degenerate sc k a b x : coordinate sc k x -> (forall y, coordinate sc k y -> y = x) -> setdatarange sc k (a, b) = Err not_finite.
Proof.
  intros X H. rewrite (setdatarange_eq sc k x x).
  - destruct (Qc_eqb (x - x) 0) eqn:E; [reflexivity|]. apply Qc_eqb_false in E. exfalso. apply E. ring.
  - split; [exact X|]. split; [exact X|]. intros y Y. rewrite (H y Y). split; apply Qcle_refl.
Qed.

(* extremes exist *)
Lemma extremes_exist sc k x : coordinate sc k x -> exists lo hi, extremes (coordinate sc k) lo hi.
Proof.
  intros X. set (sc0 := set_axis sc k {| offset := 0; scaling := 1; increasing := true |}).
  assert (forall x, datatransform sc0 k x = x) as T.
  { intros z. unfold datatransform, sc0. rewrite get_set. cbn [scaling offset]. ring. }
  destruct (datarange_total sc0 k x X) as (a & b & R). apply datarange_ok in R as ((xa & Xa & Ea) & (xb & Xb & Eb) & C). rewrite T in Ea, Eb. subst xa xb.
  exists a, b. split; [exact Xa|]. split; [exact Xb|]. intros y Y. apply C. exists y. split; [exact Y|]. now rewrite T.
Qed.

(* the display limits under a reflection of an axis *)
Definition reflects (f g : Qc -> Qc) (c : Qc) : Prop := forall x, g x = c - f x.
Lemma q_min_reflect c l : forall x, q_min (c - x) (map (fun y => c - y) l) = c - q_max x l.
Proof.
  induction l as [|a l IH]; intros x; [reflexivity|]. cbn [q_min q_max fold_left map]. fold (q_max (Qc_max x a) l).
  fold (q_min (Qc_min (c - x) (c - a)) (map (fun y => c - y) l)). rewrite <- IH. f_equal.
  unfold Qc_min, Qc_max. destruct (Qc_leb x a) eqn:E, (Qc_leb (c - x) (c - a)) eqn:F; try reflexivity.
  - apply Qc_leb_le in E, F. assert (x = a) as -> by (clear - E F; qclra). reflexivity.
  - apply Qc_leb_gt in E, F. exfalso. clear - E F. qclra.
Qed.
Lemma q_max_reflect c l : forall x, q_max (c - x) (map (fun y => c - y) l) = c - q_min x l.
Proof.
  induction l as [|a l IH]; intros x; [reflexivity|]. cbn [q_min q_max fold_left map]. fold (q_min (Qc_min x a) l).
  fold (q_max (Qc_max (c - x) (c - a)) (map (fun y => c - y) l)). rewrite <- IH. f_equal.
  unfold Qc_min, Qc_max. destruct (Qc_leb x a) eqn:E, (Qc_leb (c - x) (c - a)) eqn:F; try reflexivity.
  - apply Qc_leb_le in E, F. assert (x = a) as -> by (clear - E F; qclra). reflexivity.
  - apply Qc_leb_gt in E, F. exfalso. clear - E F. qclra.
Qed.
Lemma q_div_opp a a' b d : q_div a b = Ok d -> a' = - a -> q_div a' b = Ok (- d).
Proof.
  unfold q_div. destruct (Qc_eqb b 0) eqn:E; [discriminate|]. intros H ->. assert (a / b = d) as <- by congruence. f_equal. apply Qc_eqb_false in E. field. exact E.
Qed.
Lemma datalim_reflect sc sc' k c it l : (forall x, datatransform sc' k x = c - datatransform sc k x) -> datalim sc k it = Ok l ->
  exists l', datalim sc' k it = Ok l' /\ forall y, In y l' <-> In (c - y) l.
Proof.
  intros T. destruct it as [l0 l1 n0 n1|c0 c1]; cbn [datalim].
  - set (m := if k then l1 else l0). set (n := if k then n1 else n0). rewrite !T.
    set (a := datatransform sc k (fst m)). set (b := datatransform sc k (snd m)).
    destruct (q_div (b - a) (Qc_of_Z (2 * (Z.of_nat n - 1)))) as [d|e] eqn:D; cbn [bind]; [|discriminate]. intros H.
    assert (l = [a - d; b + d]) as -> by congruence.
    rewrite (q_div_opp _ (c - b - (c - a)) _ d D ltac:(ring)). cbn [bind]. eexists. split; [reflexivity|]. intros y. cbn [In]. clear. clearbody a b. split; (intros [H|[H|[]]]; [left|right; left]).
    + rewrite <- H. ring.
    + rewrite <- H. ring.
    + assert (y = c - (c - y)) as -> by ring. rewrite <- H. ring.
    + assert (y = c - (c - y)) as -> by ring. rewrite <- H. ring.
  - intros H. eexists. split; [reflexivity|]. assert (l = datarange1 sc k (Scatter c0 c1)) as -> by congruence. intros y. cbn [datarange1].
    set (m := if k then c1 else c0). rewrite T. assert (map (datatransform sc' k) (snd m) = map (fun y => c - y) (map (datatransform sc k) (snd m))) as ->.
    { rewrite map_map. apply map_ext. intros x. apply T. }
    rewrite q_min_reflect, q_max_reflect. set (u := q_max _ _). set (v := q_min _ _). clearbody u v. cbn [In]. clear. split.
    + intros [H|[H|[]]]; [right; left|left]; rewrite <- H; ring.
    + intros [H|[H|[]]]; [right; left|left]; rewrite H; ring.
Qed.
Lemma mapM_datalim_reflect sc sc' k c l : (forall x, datatransform sc' k x = c - datatransform sc k x) -> forall ls, mapM (datalim sc k) l = Ok ls ->
  exists ls', mapM (datalim sc' k) l = Ok ls' /\ forall y, In y (List.concat ls') <-> In (c - y) (List.concat ls).
Proof.
  intros T. induction l as [|it l IH]; intros ls H; cbn [mapM] in *.
  - assert (ls = []) as -> by congruence. exists []. split; [reflexivity|]. easy.
  - destruct (datalim sc k it) as [d|e] eqn:D; cbn [bind] in H; [|discriminate]. destruct (mapM (datalim sc k) l) as [ds|e] eqn:DS; cbn [bind] in H; [|discriminate].
    assert (ls = d :: ds) as -> by congruence. destruct (datalim_reflect sc sc' k c it d T D) as (d' & -> & I1). destruct (IH ds eq_refl) as (ds' & -> & I2). cbn [bind].
    eexists. split; [reflexivity|]. intros y. cbn [List.concat]. rewrite !in_app_iff, I1, I2. reflexivity.
Qed.
Lemma displaylim_reflect sc sc' k c lo hi : (forall x, datatransform sc' k x = c - datatransform sc k x) -> items sc' = items sc ->
  increasing (get_axis sc' k) = increasing (get_axis sc k) -> displaylim sc k = Ok (lo, hi) -> displaylim sc' k = Ok (c - hi, c - lo).
Proof.
  intros T I J. unfold displaylim. rewrite I, J. destruct (mapM (datalim sc k) (items sc)) as [ls|e] eqn:M; cbn [bind]; [|discriminate].
  destruct (mapM_datalim_reflect sc sc' k c _ T ls M) as (ls' & -> & L). cbn [bind].
  destruct (minmax (List.concat ls)) as [[a b]|e] eqn:R; cbn [bind fst snd]; [|discriminate].
  assert (minmax (List.concat ls') = Ok (c - b, c - a)) as ->.
  { apply minmax_extremes. apply minmax_ok in R as (A & B & C). split; [|split].
    - apply L. now replace (c - (c - b)) with b by ring.
    - apply L. now replace (c - (c - a)) with a by ring.
    - intros x X. apply L in X. destruct (C _ X) as [L1 L2]. clear - L1 L2. split; qclra. }
  cbn [bind fst snd]. destruct (increasing (get_axis sc k)); intros H; [assert (lo = a) as -> by congruence; assert (hi = b) as -> by congruence|assert (lo = b) as -> by congruence; assert (hi = a) as -> by congruence]; reflexivity.
Qed.

(* flipping *)
Lemma shown_toggle sc k x u : shown_at sc k x u -> shown_at (set_increasing sc k (negb (increasing (get_axis sc k)))) k x (1 - u).
Proof.
  intros (lo & hi & D & E). exists hi, lo. split.
  - revert D. unfold displaylim. set (sc' := set_increasing _ _ _). assert (mapM (datalim sc' k) (items sc') = mapM (datalim sc k) (items sc)) as ->.
    { cbn [sc' set_increasing set_axis items]. apply mapM_ext. intros it _. destruct it; cbn [datalim datarange1]; unfold datatransform, sc', set_increasing; rewrite get_set; reflexivity. }
    destruct (mapM (datalim sc k) (items sc)) as [ls|e]; cbn [bind]; [|discriminate]. destruct (minmax (List.concat ls)) as [[a b]|e]; cbn [bind fst snd]; [|discriminate].
    unfold sc', set_increasing. rewrite get_set. cbn [increasing]. destruct (increasing (get_axis sc k)); cbn [negb]; intros H;
    [assert (lo = a) as -> by congruence; assert (hi = b) as -> by congruence|assert (lo = b) as -> by congruence; assert (hi = a) as -> by congruence]; reflexivity.
  - unfold set_increasing. rewrite get_set. cbn [scaling offset]. set (s := scaling _) in *. set (o := offset _) in *. clearbody s o. clear D.
    assert (x * s - o = lo + u * (hi - lo)) as -> by (rewrite <- E; ring). ring.
Qed.
Lemma flip_reflects sc k b sc' : b = increasing (get_axis sc k) -> 0 < scaling (get_axis sc k) -> flipaxis sc k (Some b) = Ok sc' ->
  exists c, (forall x, datatransform sc' k x = c - datatransform sc k x) /\ items sc' = items sc /\ increasing (get_axis sc' k) = increasing (get_axis sc k) /\ scaling (get_axis sc' k) = - scaling (get_axis sc k).
Proof.
  intros -> S. unfold flipaxis. rewrite Bool.eqb_reflx. destruct (datarange sc k) as [[a b]|e] eqn:R; cbn [bind fst snd]; [|discriminate].
  pose proof (datarange_ok _ _ _ _ R) as R'. destruct R' as ((x0 & X0 & _) & _).
  destruct (extremes_exist sc k x0 X0) as (lo & hi & H). rewrite (setdatarange_eq _ _ _ _ _ H).
  destruct (Qc_eqb (hi - lo) 0) eqn:E; [discriminate|]. apply Qc_eqb_false in E. cbn [fst snd]. cbv zeta. intros G.
  assert (0 <= scaling (get_axis sc k)) as S0 by now apply Qclt_le_weak. pose proof (datarange_extremes _ _ _ _ (range_pos sc k lo hi H S0)) as R2.
  rewrite R in R2. assert (a = datatransform sc k lo) as -> by congruence. assert (b = datatransform sc k hi) as -> by congruence. clear R R2.
  match type of G with Ok ?s = _ => assert (sc' = s) as -> by congruence end. clear G.
  exists (datatransform sc k hi + datatransform sc k lo). split; [|split; [reflexivity|split; [now rewrite get_set|]]].
  - intros x. unfold datatransform at 1. rewrite get_set. cbn [scaling offset]. unfold datatransform. set (s := scaling _) in *. set (o := offset _) in *. clearbody s o. field. exact E.
  - rewrite get_set. cbn [scaling]. unfold datatransform. set (s := scaling _) in *. set (o := offset _) in *. clearbody s o. field. exact E.
Qed.
Theorem flip sc k inc sc' x u : 0 < scaling (get_axis sc k) -> flipaxis sc k inc = Ok sc' -> shown_at sc k x u -> shown_at sc' k x (1 - u).
Proof.
  intros S F H.
  assert (flipaxis sc k inc = Ok (set_increasing sc k (negb (increasing (get_axis sc k)))) -> shown_at sc' k x (1 - u)) as T.
  { intros G. rewrite F in G. assert (sc' = set_increasing sc k (negb (increasing (get_axis sc k)))) as -> by congruence. now apply shown_toggle. }
  destruct inc as [b|]; [|apply T; reflexivity]. destruct (Bool.eqb b (increasing (get_axis sc k))) eqn:E.
  - apply Bool.eqb_prop in E. destruct (flip_reflects sc k b sc' E S F) as (c & R & I & J & _). destruct H as (lo & hi & D & Q).
    exists (c - hi), (c - lo). split; [apply (displaylim_reflect sc); assumption|]. fold (datatransform sc' k x). rewrite R. fold (datatransform sc k x) in Q.
    set (y := datatransform sc k x) in *. clearbody y. assert (y = lo + u * (hi - lo)) as -> by (rewrite <- Q; ring). ring.
  - apply T. unfold flipaxis. now rewrite E.
Qed.
(* without a finite scaling the order of the axis decides *)
Theorem flip_toggle sc k inc sc' x u : inc <> Some (increasing (get_axis sc k)) -> flipaxis sc k inc = Ok sc' -> shown_at sc k x u -> shown_at sc' k x (1 - u).
Proof.
  intros N F H.
  assert (sc' = set_increasing sc k (negb (increasing (get_axis sc k)))) as ->.
  { destruct inc as [b|]; cbn in F; [|congruence]. destruct (Bool.eqb b (increasing (get_axis sc k))) eqn:E; [apply Bool.eqb_prop in E; congruence|congruence]. }
  now apply shown_toggle.
Qed.
Lemma setdatarange_frame sc k r sc' : setdatarange sc k r = Ok sc' -> items sc' = items sc /\ increasing (get_axis sc' k) = increasing (get_axis sc k) /\
  get_axis sc' (negb k) = get_axis sc (negb k) /\ transposed sc' = transposed sc.
Proof.
  unfold setdatarange. set (z := datarange _ k). clearbody z. destruct z as [o|e]; cbn [bind]; [|discriminate].
  destruct (q_div (snd r - fst r) (snd o - fst o)) as [s|e]; cbn [bind]; [|discriminate]. intros H.
  match type of H with Ok ?s = _ => assert (sc' = s) as -> by congruence end. rewrite get_set. split; [reflexivity|]. split; [reflexivity|]. split; [apply get_set_other|reflexivity].
Qed.
Lemma flip_frame sc k inc sc' : flipaxis sc k inc = Ok sc' -> items sc' = items sc /\ get_axis sc' (negb k) = get_axis sc (negb k) /\ transposed sc' = transposed sc /\
  increasing (get_axis sc' k) = match inc with Some b => b | None => negb (increasing (get_axis sc k)) end.
Proof.
  intros F. assert (sc' = set_increasing sc k (negb (increasing (get_axis sc k))) -> items sc' = items sc /\ get_axis sc' (negb k) = get_axis sc (negb k) /\ transposed sc' = transposed sc /\
    increasing (get_axis sc' k) = negb (increasing (get_axis sc k))) as T.
  { intros ->. unfold set_increasing. rewrite get_set. split; [reflexivity|]. split; [apply get_set_other|]. split; reflexivity. }
  destruct inc as [b|]; cbn in F; [|apply T; congruence]. destruct (Bool.eqb b (increasing (get_axis sc k))) eqn:E.
  - destruct (datarange sc k) as [r|e]; cbn [bind] in F; [|discriminate]. apply setdatarange_frame in F as (F1 & F2 & F3 & F4). apply Bool.eqb_prop in E. subst b. auto.
  - assert (sc' = set_increasing sc k (negb (increasing (get_axis sc k)))) as G by congruence. destruct (T G) as (T1 & T2 & T3 & T4). repeat split; try assumption.
    rewrite T4. destruct b, (increasing (get_axis sc k)); cbn in *; congruence.
Qed.
Lemma set_get sc k : set_axis sc k (get_axis sc k) = sc.
Proof. destruct sc, k; reflexivity. Qed.
(* a mirrored axis is not mirrored back *)
Theorem flip_mirrored sc k : scaling (get_axis sc k) < 0 -> (exists x y, coordinate sc k x /\ coordinate sc k y /\ x <> y) ->
  flipaxis sc k (Some (increasing (get_axis sc k))) = Ok sc.
Proof.
  intros S (x & y & X & Y & N). unfold flipaxis. rewrite Bool.eqb_reflx. destruct (extremes_exist sc k x X) as (lo & hi & H).
  assert (scaling (get_axis sc k) <= 0) as S0 by now apply Qclt_le_weak. rewrite (datarange_extremes _ _ _ _ (range_neg sc k lo hi H S0)). cbn [bind fst snd].
  rewrite (setdatarange_eq _ _ _ _ _ H). destruct (Qc_eqb (hi - lo) 0) eqn:E.
  - exfalso. apply Qc_eqb_spec in E. apply N. destruct H as (_ & _ & C). destruct (C x X), (C y Y). clear - E H H0 H1 H2. qclra.
  - apply Qc_eqb_false in E. cbn [fst snd]. cbv zeta. f_equal. etransitivity; [|apply (set_get sc k)]. f_equal. unfold datatransform. destruct (get_axis sc k) as [o s i] eqn:G. cbn [offset scaling increasing].
    assert ((hi * s - o - (lo * s - o)) / (hi - lo) = s) as -> by (field; exact E). f_equal. ring.
Qed.
Theorem flip_twice sc k sc1 : 0 < scaling (get_axis sc k) -> flipaxis sc k (Some (increasing (get_axis sc k))) = Ok sc1 ->
  sc1 <> sc /\ flipaxis sc1 k (Some (increasing (get_axis sc k))) = Ok sc1.
Proof.
  intros S F. destruct (flip_reflects sc k _ sc1 eq_refl S F) as (c & R & I & J & K). split.
  - intros ->. clear - S K. set (s := scaling _) in *. clearbody s. qclra.
  - rewrite <- J. apply flip_mirrored; [rewrite K; clear - S; set (s := scaling _) in *; clearbody s; qclra|].
    unfold flipaxis in F. rewrite Bool.eqb_reflx in F. destruct (datarange sc k) as [[a b]|e] eqn:D; cbn [bind fst snd] in F; [|discriminate].
    pose proof (datarange_ok _ _ _ _ D) as D'. destruct D' as ((x0 & X0 & _) & _). destruct (extremes_exist sc k x0 X0) as (lo & hi & H).
    rewrite (setdatarange_eq _ _ _ _ _ H) in F. destruct (Qc_eqb (hi - lo) 0) eqn:E; [discriminate|]. apply Qc_eqb_false in E.
    destruct H as (A & B & _). exists lo, hi. split; [now apply (coordinate_items sc1 sc k lo I)|]. split; [now apply (coordinate_items sc1 sc k hi I)|]. intros ->. apply E. ring.
Qed.

(* origins *)
Lemma origin_range sc k off a b : datarange sc k = Ok (a, b) -> datarange (origin sc k off) k = Ok (a - off + (1 + 1) * offset (get_axis sc k), b - off + (1 + 1) * offset (get_axis sc k)).
Proof.
  intros H. apply datarange_ok in H as ((xa & Xa & Ea) & (xb & Xb & Eb) & C). apply datarange_extremes.
  assert (forall x, datatransform (origin sc k off) k x = datatransform sc k x - off + (1 + 1) * offset (get_axis sc k)) as T.
  { intros x. unfold datatransform, origin. rewrite get_set. cbn [scaling offset]. ring. }
  split; [|split].
  - exists xa. split; [exact Xa|]. rewrite T. now rewrite <- Ea.
  - exists xb. split; [exact Xb|]. rewrite T. now rewrite <- Eb.
  - intros y (x & X & ->). rewrite T. destruct (C (datatransform sc k x)) as [L1 L2]; [exists x; auto|]. clear - L1 L2. set (y := datatransform sc k x) in *. set (o := offset _). clearbody y o. split; qclra.
Qed.
Lemma origin_range_other sc k off : datarange (origin sc k off) (negb k) = datarange sc (negb k).
Proof.
  unfold datarange. cbn [origin set_axis items]. f_equal. rewrite !flat_map_concat_map. f_equal. apply map_ext. intros it. destruct it; cbn [datarange1]; unfold datatransform, origin; rewrite get_set_other; reflexivity.
Qed.
Theorem zero sc sc' : originzero sc = Ok sc' -> forall k, exists hi, datarange sc' k = Ok ((1 + 1) * offset (get_axis sc k), hi).
Proof.
  unfold originzero. destruct (datarange sc false) as [[a b]|e] eqn:R0; cbn [bind fst]; [|discriminate].
  pose proof (origin_range_other sc false a) as O. cbn [negb] in O. rewrite O. destruct (datarange sc true) as [[c d]|e] eqn:R1; cbn [bind fst]; [|discriminate]. intros H.
  assert (sc' = origin (origin sc false a) true c) as -> by congruence. intros [|].
  - eexists. rewrite (origin_range _ true c c d); [|now rewrite O]. cbn [origin set_axis get_axis axis1 axis0]. f_equal. f_equal. ring.
  - pose proof (origin_range_other (origin sc false a) true c) as P. cbn [negb] in P. rewrite P, (origin_range sc false a a b R0). eexists. cbn [get_axis]. f_equal. f_equal. ring.
Qed.
Theorem zero_twice sc sc1 sc2 k m hi : datarange sc k = Ok (m, hi) -> originzero sc = Ok sc1 -> originzero sc1 = Ok sc2 ->
  exists hi', datarange sc2 k = Ok ((1 + 1) * (m - offset (get_axis sc k)), hi').
Proof.
  intros R H G. destruct (zero sc1 sc2 G k) as [h D]. exists h. rewrite D. f_equal. f_equal. f_equal. clear - R H.
  unfold originzero in H. destruct (datarange sc false) as [[a b]|e] eqn:R0; cbn [bind fst] in H; [|discriminate].
  pose proof (origin_range_other sc false a) as O. cbn [negb] in O. rewrite O in H. destruct (datarange sc true) as [[c d]|e] eqn:R1; cbn [bind fst] in H; [|discriminate].
  assert (sc1 = origin (origin sc false a) true c) as -> by congruence. destruct k.
  - assert (m = c) as -> by congruence. reflexivity.
  - assert (m = a) as -> by congruence. reflexivity.
Qed.
Theorem zero_total sc : items sc <> [] -> exists sc', originzero sc = Ok sc'.
Proof.
  intros H. assert (forall k, exists x, coordinate sc k x) as X.
  { intros k. destruct (items sc) as [|it l] eqn:E; [easy|]. destruct it as [l0 l1 n0 n1|c0 c1].
    - exists (fst (if k then l1 else l0)). eexists. split; [rewrite E; now left|]. cbn. auto.
    - exists (fst (if k then c1 else c0)). eexists. split; [rewrite E; now left|]. cbn. auto. }
  unfold originzero. destruct (X false) as [x0 X0]. destruct (datarange_total sc false x0 X0) as (a & b & ->). cbn [bind fst].
  pose proof (origin_range_other sc false a) as O. cbn [negb] in O. rewrite O. destruct (X true) as [x1 X1]. destruct (datarange_total sc true x1 X1) as (c & d & ->). cbn [bind fst]. eauto.
Qed.
Theorem reset sc x : x * scaling (axis1 (resetdatarange sc)) - offset (axis1 (resetdatarange sc)) = x - 1 /\
  x * scaling (axis0 (resetdatarange sc)) - offset (axis0 (resetdatarange sc)) = x.
Proof. cbn. split; ring. Qed.
Theorem origin_reset sc k : offset (get_axis (originreset sc) k) = - offset (get_axis sc k).
Proof. destruct k; cbn; ring. Qed.

(* the display limits *)
Lemma border a b d n : q_div (b - a) (Qc_of_Z (2 * (Z.of_nat n - 1))) = Ok d -> (2 <= n)%nat ->
  (a <= b -> 0 <= d) /\ (b <= a -> d <= 0).
Proof.
  unfold q_div. destruct (Qc_eqb (Qc_of_Z (2 * (Z.of_nat n - 1))) 0) eqn:E; [discriminate|]. intros H N. apply Qc_eqb_false in E.
  assert (d * Qc_of_Z (2 * (Z.of_nat n - 1)) = b - a) as D by (assert (d = (b - a) / Qc_of_Z (2 * (Z.of_nat n - 1))) as -> by congruence; field; exact E).
  assert (0 < Qc_of_Z (2 * (Z.of_nat n - 1))) as P by (change 0 with (Qc_of_Z 0); apply Qc_of_Z_lt; lia).
  set (m := Qc_of_Z _) in *. clearbody m. clear - D P. split; intros L; qcnra.
Qed.
Lemma datalim_total sc k it : wide k it -> exists l, datalim sc k it = Ok l.
Proof.
  destruct it as [l0 l1 n0 n1|c0 c1]; cbn [datalim]; [|eauto]. intros W. unfold wide in W. set (n := if k then n1 else n0) in *.
  unfold q_div. destruct (Qc_eqb (Qc_of_Z (2 * (Z.of_nat n - 1))) 0) eqn:E; [|cbn; eauto].
  apply Qc_eqb_spec in E. change 0 with (Qc_of_Z 0) in E. apply Qc_of_Z_inj in E. lia.
Qed.
Lemma datalim_bound sc k it l x : wide k it -> datalim sc k it = Ok l -> coordinates k it x -> exists a b, In a l /\ In b l /\ a <= datatransform sc k x /\ datatransform sc k x <= b.
Proof.
  destruct it as [l0 l1 n0 n1|c0 c1].
  - cbn [datalim coordinates wide]. set (m := if k then l1 else l0). set (n := if k then n1 else n0). intros W.
    set (a := datatransform sc k (fst m)). set (b := datatransform sc k (snd m)).
    destruct (q_div (b - a) (Qc_of_Z (2 * (Z.of_nat n - 1)))) as [d|e] eqn:D; cbn [bind]; [|discriminate]. intros H.
    assert (l = [a - d; b + d]) as -> by congruence. destruct (border a b d n D W) as [B1 B2]. intros X.
    assert (datatransform sc k x = a \/ datatransform sc k x = b) as Y by (destruct X as [-> | ->]; auto). clear X H D.
    set (y := datatransform sc k x) in *. clearbody y a b.
    destruct (Qc_lt_le_dec_bool b a) as [L|L].
    + exists (b + d), (a - d). pose proof (B2 (Qclt_le_weak _ _ L)) as B. cbn [In]. split; [auto|]. split; [auto|]. clear B1 B2. destruct Y as [-> | ->]; split; qclra.
    + exists (a - d), (b + d). pose proof (B1 L) as B. cbn [In]. split; [auto|]. split; [auto|]. clear B1 B2. destruct Y as [-> | ->]; split; qclra.
  - intros _ H X. assert (l = datarange1 sc k (Scatter c0 c1)) as -> by (cbn in *; congruence). now apply datarange1_bound.
Qed.
Theorem limits sc k x : (forall it, In it (items sc) -> wide k it) -> coordinate sc k x -> exists lo hi, displaylim sc k = Ok (lo, hi) /\
  (if increasing (get_axis sc k) then lo <= x * scaling (get_axis sc k) - offset (get_axis sc k) /\ x * scaling (get_axis sc k) - offset (get_axis sc k) <= hi
   else hi <= x * scaling (get_axis sc k) - offset (get_axis sc k) /\ x * scaling (get_axis sc k) - offset (get_axis sc k) <= lo).
Proof.
  intros W (it & I & X). fold (datatransform sc k x). unfold displaylim.
  assert (forall l, (forall i, In i l -> wide k i) -> exists ls, mapM (datalim sc k) l = Ok ls /\ forall i d, In i l -> datalim sc k i = Ok d -> forall y, In y d -> In y (List.concat ls)) as M.
  { clear. induction l as [|i l IH]; intros W; cbn [mapM]; [exists []; split; [reflexivity|easy]|].
    destruct (datalim_total sc k i (W i (or_introl eq_refl))) as [d D]. destruct (IH (fun j J => W j (or_intror J))) as (ls & -> & L). rewrite D. cbn [bind]. eexists. split; [reflexivity|].
    intros j e [<- | J] E y Y; cbn [List.concat]; apply in_or_app; [left; congruence|right; eauto]. }
  destruct (M (items sc) W) as (ls & -> & L). cbn [bind]. destruct (datalim_total sc k it (W it I)) as [d D].
  destruct (datalim_bound sc k it d x (W it I) D X) as (a & b & A & B & L1 & L2). pose proof (L it d I D a A) as A'. pose proof (L it d I D b B) as B'.
  destruct (minmax (List.concat ls)) as [[u v]|e] eqn:R.
  - cbn [bind fst snd]. apply minmax_ok in R as (_ & _ & C). destruct (C a A') as [C1 _], (C b B') as [_ C2]. pose proof (Qcle_trans _ _ _ C1 L1) as P1. pose proof (Qcle_trans _ _ _ L2 C2) as P2. destruct (increasing (get_axis sc k)); do 2 eexists; (split; [reflexivity|]); split; assumption.
  - destruct (List.concat ls); [destruct A'|discriminate].
Qed.
Lemma minmax2 a b : minmax [a; b] = Ok (Qc_min a b, Qc_max a b).
Proof. reflexivity. Qed.
(* one image: pixel i of n is displayed in the middle of interval i of n equal intervals *)
Theorem pixel sc (k : bool) l0 l1 n0 n1 (i : Qc) : items sc = [Image l0 l1 n0 n1] -> (2 <= (if k then n1 else n0))%nat -> 0 < scaling (get_axis sc k) ->
  fst (if k then l1 else l0) < snd (if k then l1 else l0) ->
  shown_at sc k (fst (if k then l1 else l0) + i * ((snd (if k then l1 else l0) - fst (if k then l1 else l0)) / (Qc_of_Z (Z.of_nat (if k then n1 else n0)) - 1)))
    (if increasing (get_axis sc k) then (i + / (1 + 1)) / Qc_of_Z (Z.of_nat (if k then n1 else n0)) else 1 - (i + / (1 + 1)) / Qc_of_Z (Z.of_nat (if k then n1 else n0))).
Proof.
  intros I. set (m := if k then l1 else l0). set (n := if k then n1 else n0). intros N S L.
  assert (Qc_of_Z (2 * (Z.of_nat n - 1)) = (1 + 1) * (Qc_of_Z (Z.of_nat n) - 1)) as Z2 by (rewrite Qc_of_Z_mult, Qc_of_Z_minus; apply Qc_is_canon; reflexivity).
  assert (1 < Qc_of_Z (Z.of_nat n)) as N1 by (change 1 with (Qc_of_Z 1); apply Qc_of_Z_lt; lia).
  unfold shown_at, displaylim. rewrite I. cbn [mapM datalim]. fold m n. rewrite Z2. set (q := Qc_of_Z (Z.of_nat n)) in *. clearbody q. clear Z2.
  assert (q - 1 <> 0) as Q1 by (intros E; clear - E N1; qclra). assert (q <> 0) as Q0 by (intros E; clear - E N1; qclra).
  assert ((1 + 1) * (q - 1) <> 0) as Q2 by (intros E; clear - E N1; qclra).
  unfold q_div. destruct (Qc_eqb ((1 + 1) * (q - 1)) 0) eqn:E; [apply Qc_eqb_spec in E; contradiction|]. clear E. cbn [bind List.concat app]. rewrite minmax2. cbn [bind fst snd].
  unfold datatransform. set (s := scaling _) in *. set (o := offset _) in *. destruct m as [u v]. cbn [fst snd] in *. clearbody s o. clear I.
  set (lo := u * s - o - (v * s - o - (u * s - o)) / ((1 + 1) * (q - 1))). set (hi := v * s - o + (v * s - o - (u * s - o)) / ((1 + 1) * (q - 1))).
  assert (hi - lo = (v - u) * s * (q / (q - 1))) as W by (unfold hi, lo; field; split; [exact Q1|discriminate]).
  assert (0 < / (q - 1)) as P.
  { assert ((q - 1) * / (q - 1) = 1) as V by (apply Qcmult_inv_r; exact Q1). set (w := / (q - 1)) in *. clearbody w. clear - V N1. qcnra. }
  assert (lo <= hi) as LH.
  { assert (0 <= hi - lo) as D; [|clear - D; clearbody lo hi; qclra]. rewrite W. unfold Qcdiv. set (w := / (q - 1)) in *. clearbody w. clear - P S L N1.
    assert (0 <= (v - u) * s) as A by qcnra. assert (0 <= q * w) as B by qcnra. set (z := (v - u) * s) in *. set (z' := q * w) in *. clearbody z z'. qcnra. }
  assert (Qc_min lo hi = lo) as -> by (unfold Qc_min; apply Qc_leb_le in LH; now rewrite LH).
  assert (Qc_max lo hi = hi) as -> by (unfold Qc_max; apply Qc_leb_le in LH; now rewrite LH).
  assert ((u + i * ((v - u) / (q - 1))) * s - o - lo = (i + / (1 + 1)) / q * (hi - lo)) as F.
  { rewrite W. unfold lo. field. repeat split; try assumption; discriminate. }
  destruct (increasing (get_axis sc k)).
  - exists lo, hi. split; [reflexivity|exact F].
  - exists hi, lo. split; [reflexivity|]. set (w := (i + / (1 + 1)) / q) in *. set (y := (u + i * ((v - u) / (q - 1))) * s - o) in *. clearbody w y lo hi. clear - F.
    assert (y = lo + w * (hi - lo)) as -> by (rewrite <- F; ring). ring.
Qed.
Theorem single sc (k : bool) l0 l1 n0 n1 l : items sc = Image l0 l1 n0 n1 :: l -> (if k then n1 else n0) = 1%nat -> displaylim sc k = Err not_finite.
Proof. intros I N. unfold displaylim. rewrite I. cbn [mapM datalim]. rewrite N. reflexivity. Qed.
Theorem empty sc k : items sc = [] -> displaylim sc k = Err ValueError /\ datarange sc k = Err ValueError.
Proof. intros I. unfold displaylim, datarange. rewrite I. split; reflexivity. Qed.

(* axes *)
Theorem axes sc : dataaxisx sc = negb (dataaxisy sc) /\ dataaxisx (transpose sc (negb (transposed sc))) = dataaxisy sc /\ dataaxisy (transpose sc (negb (transposed sc))) = dataaxisx sc /\
  dataaxisx (transpose sc false) = true.
Proof. unfold dataaxisx, dataaxisy, dataaxis. cbn. destruct (transposed sc); repeat split. Qed.
Theorem unit_y sc : stryunit sc = strxunit sc.
Proof. reflexivity. Qed.
Lemma displaylim_transpose sc b k : displaylim (transpose sc b) k = displaylim sc k.
Proof. unfold displaylim. destruct k; reflexivity. Qed.
Theorem aspect_transpose sc r r' : aspectratio_data sc = Ok r -> aspectratio_data (transpose sc (negb (transposed sc))) = Ok r' -> r * r' = 1.
Proof.
  unfold aspectratio_data, displaylimx, displaylimy. rewrite !displaylim_transpose. destruct (axes sc) as (_ & A & B & _). rewrite A, B.
  destruct (displaylim sc (dataaxisy sc)) as [y|e]; cbn [bind]; [|discriminate]. destruct (displaylim sc (dataaxisx sc)) as [x|e]; cbn [bind]; [|discriminate].
  set (dy := Qc_abs (snd y - fst y)). set (dx := Qc_abs (snd x - fst x)). clearbody dx dy. unfold q_div. destruct (Qc_eqb dx 0) eqn:E1; [discriminate|]. destruct (Qc_eqb dy 0) eqn:E2; [discriminate|].
  intros H G. assert (r = dy / dx) as -> by congruence. assert (r' = dx / dy) as -> by congruence. apply Qc_eqb_false in E1, E2. field. split; assumption.
Qed.
Theorem aspect_correct sc c d : aspectcorrect sc = Ok (Some c) -> aspectratio_data sc = Ok d -> aspectratio sc = Ok (c * d).
Proof.
  unfold aspectcorrect, aspectratio. destruct (aspect sc) as [r|]; [|discriminate]. intros H D. rewrite D in H. cbn [bind] in H. unfold q_div in H.
  destruct (Qc_eqb d 0) eqn:E; cbn [bind] in H; [discriminate|]. assert (c = r / d) as -> by congruence. apply Qc_eqb_false in E. f_equal. field. exact E.
Qed.

(* scene_modifyaxes *)
Theorem modify_x sc p sc' b : modifyaxes sc p = Ok sc' -> m_incx p = Some b -> m_flipx p = true \/ b = true -> increasing (get_axis sc' (dataaxisx sc')) = b /\
  transposed sc' = (m_transpose p || transposed sc)%bool.
Proof.
  unfold modifyaxes. intros H B C.
  destruct (if m_originzero p then originzero sc else Ok sc) as [s0|e] eqn:E0; cbn [bind] in H; [|discriminate].
  assert (transposed s0 = transposed sc) as T0.
  { destruct (m_originzero p); [|congruence]. unfold originzero in E0. destruct (datarange sc false) as [r0|]; cbn [bind] in E0; [|discriminate].
    destruct (datarange (origin sc false (fst r0)) true) as [r1|]; cbn [bind] in E0; [|discriminate]. match type of E0 with Ok ?s = _ => assert (s0 = s) as -> by congruence end. reflexivity. }
  set (s1 := if m_transpose p then transpose s0 true else s0) in *.
  assert (transposed s1 = (m_transpose p || transposed sc)%bool) as T1 by (unfold s1; destruct (m_transpose p); [reflexivity|exact T0]). clearbody s1. clear E0 T0 s0.
  destruct (if m_flipx p then _ else _) as [s2|e] eqn:E2 in H; cbn [bind] in H; [|discriminate].
  assert (transposed s2 = transposed s1 /\ increasing (get_axis s2 (dataaxisx s1)) = b) as [T2 I2].
  { rewrite B in E2. destruct (m_flipx p).
    - unfold flipx in E2. apply flip_frame in E2 as (_ & _ & T & I). auto.
    - destruct C as [C|C]; [discriminate|]. subst b. assert (s2 = increasingx s1 true) as -> by congruence. unfold increasingx, set_increasing. rewrite get_set. auto. }
  clear E2. destruct (if m_flipy p then _ else _) as [s3|e] eqn:E3 in H; cbn [bind] in H; [|discriminate].
  assert (dataaxisx s1 = dataaxisx s2) as X by (unfold dataaxisx, dataaxis; now rewrite T2). rewrite X in I2.
  assert (dataaxisx s2 = negb (dataaxisy s2)) as XY by apply axes.
  assert (transposed s3 = transposed s2 /\ increasing (get_axis s3 (dataaxisx s2)) = b) as [T3 I3].
  { destruct (m_flipy p).
    - unfold flipy in E3. apply flip_frame in E3 as (_ & G & T & _). rewrite XY, G, <- XY. auto.
    - destruct (m_incy p) as [[|]|]; [|assert (s3 = s2) as -> by congruence; auto|assert (s3 = s2) as -> by congruence; auto].
      assert (s3 = increasingy s2 true) as -> by congruence. unfold increasingy, set_increasing. split; [reflexivity|]. rewrite XY, get_set_other, <- XY. exact I2. }
  assert (transposed sc' = transposed s3 /\ (forall k, get_axis sc' k = get_axis s3 k)) as [T4 G4].
  { match type of H with Ok ?s = _ => assert (sc' = s) as -> by congruence end. destruct (m_aspect p); split; reflexivity. }
  split; [|congruence]. rewrite G4. replace (dataaxisx sc') with (dataaxisx s2); [exact I3|]. unfold dataaxisx, dataaxis. now rewrite T4, T3.
Qed.
Theorem modify_y sc p sc' b : modifyaxes sc p = Ok sc' -> m_incy p = Some b -> m_flipy p = true \/ b = true -> increasing (get_axis sc' (dataaxisy sc')) = b.
Proof.
  unfold modifyaxes. intros H B C.
  destruct (if m_originzero p then originzero sc else Ok sc) as [s0|e]; cbn [bind] in H; [|discriminate].
  set (s1 := if m_transpose p then transpose s0 true else s0) in *. clearbody s1.
  destruct (if m_flipx p then _ else _) as [s2|e] in H; cbn [bind] in H; [|discriminate].
  destruct (if m_flipy p then _ else _) as [s3|e] eqn:E3 in H; cbn [bind] in H; [|discriminate].
  assert (transposed s3 = transposed s2 /\ increasing (get_axis s3 (dataaxisy s2)) = b) as [T3 I3].
  { rewrite B in E3. destruct (m_flipy p).
    - unfold flipy in E3. apply flip_frame in E3 as (_ & _ & T & I). auto.
    - destruct C as [C|C]; [discriminate|]. subst b. assert (s3 = increasingy s2 true) as -> by congruence. unfold increasingy, set_increasing. rewrite get_set. auto. }
  assert (transposed sc' = transposed s3 /\ (forall k, get_axis sc' k = get_axis s3 k)) as [T4 G4].
  { match type of H with Ok ?s = _ => assert (sc' = s) as -> by congruence end. destruct (m_aspect p); split; reflexivity. }
  rewrite G4. replace (dataaxisy sc') with (dataaxisy s2); [exact I3|]. unfold dataaxisy, dataaxis. now rewrite T4, T3.
Qed.
Theorem modify_ignored sc p q : m_flipx p = false -> m_incx p = Some false -> m_originzero q = m_originzero p -> m_transpose q = m_transpose p -> m_flipx q = false -> m_incx q = None ->
  m_flipy q = m_flipy p -> m_incy q = m_incy p -> m_aspect q = m_aspect p -> modifyaxes sc p = modifyaxes sc q.
Proof. intros A B C D E F G H I. unfold modifyaxes. rewrite A, B, C, D, E, F, G, H, I. reflexivity. Qed.
