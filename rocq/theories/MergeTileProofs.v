From Verif Require Import GridSpec GridProofs MergeModel MergeSpec MergeProofs MergeTopProofs.
From Coq Require Import Lia.
Local Open Scope nat_scope.
#[local] Arguments prod : simpl never.

(* ---- one scan without the dimension of the stack ---- *)
Theorem stack_single : forall (A : Type) text et (fill : A) map_ (d : arr A), shape d <> [] ->
  let sm := lookup map_ (shape d) in sm <> [] -> usable (shape d) sm ->
  exists out, stack text et fill map_ (length (shape d)) true [d] = Ok (Virtual out) /\ shape out = rev sm /\
    forall c, inside sm c ->
      at_ out (rev c) = if point sm c <? full_lines sm (prod (shape d)) then at_ d (unrank (shape d) (point sm c)) else fill.
Proof.
  intros A text et fill map_ d ND sm NM U. destruct (rev_nonempty sm NM) as (n0 & rest & R).
  assert (RR : rev (n0 :: rest) = sm) by (rewrite <- R; apply rev_involutive). rewrite <- RR in U.
  destruct (slicing_usable (shape d) n0 rest U) as (sidx & lidx & k & s' & LS & CS & RL & LK & PS & UN & FK).
  assert (CL : clip (rev lidx) (n0 :: rest) = Ok (from_zero (k :: rest))).
  { destruct RL as [[-> ->]| ->]; [apply clip_nil|]. apply clip_fit, fit_from_zero. constructor; [exact LK|]. clear. induction rest; constructor; auto. }
  destruct (mapping_ok (n0 :: rest) (rev lidx) _ d sidx s' CL CS) as (m & M & V); [rewrite extents_zero, prod_cons; lia|].
  exists (virtual (n0 :: rest) fill [m]). split; [|split; [cbn [virtual shape]; symmetry; exact R|]].
  - unfold stack. cbn [map max_shape forallb fold_left bind]. destruct (shape d) as [|x sh] eqn:SD; [congruence|]. cbv zeta.
    rewrite firstn_all, skipn_all, app_nil_r. fold sm. rewrite R, LS. cbn [bind]. rewrite M. reflexivity.
  - intros c I. assert (I' : inside (n0 :: rest) (rev c)) by (rewrite <- R; now apply inside_rev).
    assert (LC : length (rev c) = length (k :: rest)) by (rewrite (inside_length _ _ I'); reflexivity).
    unfold virtual. cbn [at_ fold_left]. rewrite V, extents_zero, local_zero by exact LC.
    assert (RK : rank (k :: rest) (rev c) = point sm c).
    { change (rank (k :: rest) (rev c)) with (rank (n0 :: rest) (rev c)). rewrite <- R. apply rank_rev. now apply inside_length. }
    rewrite RR in FK. rewrite <- FK.
    pose proof (in_lines n0 rest k (rev c) I' LK) as IL. change (rank (n0 :: rest) (rev c)) with (rank (k :: rest) (rev c)) in IL. rewrite RK in *.
    destruct (in_box (from_zero (k :: rest)) (rev c)) eqn:B.
    + apply in_box_range, range_zero, IL in B. destruct (Nat.ltb_spec (point sm c) (k * prod rest)); [|lia]. f_equal. apply UN. rewrite PS. exact B.
    + destruct (Nat.ltb_spec (point sm c) (k * prod rest)) as [L|L]; [|reflexivity]. exfalso. apply IL in L.
      assert (T : in_box (from_zero (k :: rest)) (rev c) = true) by (now apply in_box_range, range_zero). congruence.
Qed.

(* ---- tiles ---- *)
Lemma line_shape_rev sm n n0 rest : rev sm = n0 :: rest -> prod rest <> 0 ->
  exists k, rev (line_shape sm n) = k :: rest /\ k <= n0 /\ full_lines sm n = k * prod rest /\ line_shape sm n = rev (k :: rest).
Proof.
  intros R PZ. assert (S : sm = rev rest ++ [n0]) by (rewrite <- (rev_involutive sm), R; reflexivity).
  assert (RL : removelast sm = rev rest) by (rewrite S; apply removelast_last).
  exists (Nat.min n (prod sm) / prod rest). unfold line_shape, full_lines. rewrite RL, prod_rev. split; [rewrite rev_app_distr, rev_involutive; reflexivity|].
  split; [|split; reflexivity].
  apply Nat.div_le_upper_bound; [exact PZ|]. assert (prod sm = prod rest * n0) by (rewrite S, prod_app, prod_rev, prod_one; reflexivity). lia.
Qed.
Lemma point_last a x y : forall c, point (a ++ [x]) c = point (a ++ [y]) c.
Proof.
  induction a as [|n a IH]; intros [|i c]; cbn [app point]; try reflexivity.
  - destruct c; cbn [point]; lia.
  - now rewrite IH.
Qed.
Lemma line_inside sm n c : sm <> [] -> prod sm <> 0 -> (inside (line_shape sm n) c <-> inside sm c /\ point sm c < full_lines sm n).
Proof.
  intros NM PZ. destruct (rev_nonempty sm NM) as (n0 & rest & R).
  assert (PR : prod rest <> 0) by (intros Z; rewrite <- (prod_rev sm), R, prod_cons, Z in PZ; lia).
  destruct (line_shape_rev sm n n0 rest R PR) as (k & LR & LK & FL & LS).
  assert (SW : forall s idx, inside s idx <-> inside (rev s) (rev idx)).
  { intros s idx. split; [apply inside_rev|]. intros H. apply inside_rev in H. rewrite !rev_involutive in H. exact H. }
  rewrite (SW (line_shape sm n) c), (SW sm c), LR, R, FL. split.
  - intros I. assert (I' : inside (n0 :: rest) (rev c)).
    { inversion I; subst. constructor; [lia|assumption]. }
    split; [exact I'|]. rewrite <- rank_rev; [|assert (L := inside_length _ _ I'); rewrite <- R, !rev_length in L; exact L].
    rewrite R. now apply in_lines.
  - intros [I' L]. apply (in_lines n0 rest k (rev c) I' LK). rewrite <- rank_rev in L; [|assert (L2 := inside_length _ _ I'); rewrite <- R, !rev_length in L2; exact L2].
    rewrite R in L. exact L.
Qed.
Lemma line_complete sm : sm <> [] -> prod sm <> 0 -> line_shape sm (prod sm) = sm.
Proof.
  intros NM PZ. unfold line_shape. rewrite Nat.min_id. pose proof (prod_last sm NM) as PL. rewrite PL at 1.
  assert (PZ' : prod (removelast sm) <> 0) by (intros Z; rewrite PL, Z in PZ; lia).
  rewrite (Nat.mul_comm (prod (removelast sm))), Nat.div_mul by exact PZ'. symmetry. now apply app_removelast_last.
Qed.
Definition tile_source (s a s' : list nat) (size : nat) : Prop :=
  clip (if shape_eqb (a ++ []) s then [] else from_zero (a ++ []) ++ []) s = Ok (from_zero s') /\ prod s' = size /\
  forall r, r < prod s' -> unrank s' r = unrank s r.
Lemma tile_pair s sm : sm <> [] -> usable_tile s sm ->
  exists a s', (let! r := match_shapes [s; sm] true in pair_shapes r) = Ok (a, line_shape sm (prod s)) /\ tile_source s a s' (prod (line_shape sm (prod s))).
Proof.
  intros NM (NS & [PS LE] & U). assert (PZ : prod sm <> 0) by lia. destruct (Nat.eq_dec (prod s) (prod sm)) as [EQ|NEQ].
  - exists s, s. rewrite match_equal; [|discriminate|exists (prod s); repeat constructor; congruence]. cbn [bind pair_shapes]. rewrite EQ, line_complete by assumption.
    split; [reflexivity|]. unfold tile_source. rewrite app_nil_r, shape_eqb_refl. split; [apply clip_nil|]. split; [exact EQ|reflexivity].
  - destruct U as [U|[ROW FL]]; [contradiction|]. destruct (match_two s sm true ROW NM NEQ FL) as (M & LS & LK & PR & FK). rewrite M. cbn [bind pair_shapes].
    set (F := full_lines sm (prod s)) in *. set (k := Nat.min (prod s) (prod sm) / prod (removelast sm)) in *.
    assert (NK : shape_eqb sm (removelast sm ++ [k]) = false).
    { apply shape_eqb_false. intros E. assert (KL : k = last sm 0) by (rewrite E; symmetry; apply last_last).
      assert (k * prod (removelast sm) <= prod s).
      { unfold k. rewrite Nat.mul_comm. etransitivity; [apply Nat.mul_div_le; exact PR|lia]. }
      rewrite (prod_last sm NM) in NEQ, LE. rewrite <- KL in NEQ, LE. lia. }
    rewrite NK. exists (if shape_eqb s (removelast s ++ [F]) then [] else removelast s ++ [F]), (removelast s ++ [F]).
    split; [reflexivity|]. destruct ROW as [_ R1]. assert (PL : prod (removelast s ++ [F]) = prod (line_shape sm (prod s))).
    { unfold line_shape. fold k. rewrite !prod_app, R1, !prod_one. lia. }
    split; [|split; [exact PL|]].
    + destruct (shape_eqb s (removelast s ++ [F])) eqn:SE.
      * apply shape_eqb_true in SE. cbn [app from_zero map]. rewrite shape_eqb_false by congruence. rewrite clip_nil, <- SE. reflexivity.
      * rewrite !app_nil_r. rewrite shape_eqb_false by (intros E; rewrite E, shape_eqb_refl in SE; discriminate SE).
        apply clip_fit, fit_from_zero, row_le; [exact NS|exact LS].
    + intros r LR. rewrite prod_app, R1, prod_one in LR. rewrite (app_removelast_last 0 NS) at 2. apply unrank_row; [exact R1|lia|lia].
Qed.
Lemma box_point b l : in_range (map2 Nat.add (offsets b) l) b <-> (length b <= length l /\ inside (extents b) (firstn (length b) l)).
Proof.
  revert l. induction b as [|[o e] b IH]; intros [|x l]; cbn [offsets extents map map2 length firstn fst snd].
  - split; [intros _; split; [lia|constructor]|constructor].
  - split; [intros _; split; [lia|constructor]|constructor].
  - split; [intros H; inversion H|]. intros [L _]. lia.
  - fold (offsets b) (extents b). specialize (IH l). split.
    + intros H. inversion H; subst. cbn [fst snd] in *. apply IH in H5. split; [lia|]. constructor; [lia|]. apply H5.
    + intros [L H]. inversion H; subst. constructor; [cbn [fst snd]; lia|]. apply IH. split; [lia|assumption].
Qed.
Lemma local_point b : forall l, length l = length b -> local b (map2 Nat.add (offsets b) l) = l.
Proof.
  unfold local. induction b as [|[o e] b IH]; intros [|x l] L; cbn [length] in L; try lia; [reflexivity|]. cbn [offsets map map2 fst]. f_equal; [lia|]. apply IH. lia.
Qed.
Lemma point_local b idx : in_range idx b -> idx = map2 Nat.add (offsets b) (local b idx) /\ inside (extents b) (local b idx).
Proof.
  unfold local. induction 1 as [|i [o e] idx b H F [IH1 IH2]]; cbn [offsets extents map map2 fst snd] in *; [split; [reflexivity|constructor]|]. split.
  - f_equal; [lia|]. exact IH1.
  - constructor; [lia|]. exact IH2.
Qed.
Lemma extents_length b : length (extents b) = length b. Proof. apply map_length. Qed.
Lemma tile_maps_ok {A} lsh : forall (boxes : list box) (sources : list (arr A)) reduced,
  length boxes = length sources -> length reduced = length sources ->
  (forall i b d a, nth_error boxes i = Some b -> nth_error sources i = Some d -> nth_error reduced i = Some a -> fit_box b lsh /\ exists s', tile_source (shape d) a s' (prod (extents b))) ->
  exists maps, tile_maps lsh boxes sources reduced (map (fun _ => []) sources) = Ok maps /\ length maps = length sources /\
    forall i m b d, nth_error maps i = Some m -> nth_error boxes i = Some b -> nth_error sources i = Some d ->
      forall idx, (in_range idx b -> m idx = Some (at_ d (unrank (shape d) (rank (extents b) (local b idx))))) /\ (~ in_range idx b -> m idx = None).
Proof.
  induction boxes as [|b boxes IH]; intros [|d sources] [|a reduced] LB LR H; cbn [length] in LB, LR; try lia.
  - exists []. split; [reflexivity|]. split; [reflexivity|]. intros [|i] m b d N; discriminate N.
  - cbn [map tile_maps]. destruct (H 0 b d a eq_refl eq_refl eq_refl) as [FB (s' & CS & PS & UN)]. change (from_zero []) with (@nil (nat * nat)).
    destruct (mapping_ok lsh (b ++ []) b d (if shape_eqb (a ++ []) (shape d) then [] else from_zero (a ++ []) ++ []) s') as (m & M & V).
    + rewrite app_nil_r. now apply clip_fit.
    + exact CS.
    + congruence.
    + match goal with |- context [bind (mapping ?p ?q ?r ?u) _] => replace (mapping p q r u) with (Ok m) by (symmetry; exact M) end.
      cbn [bind]. destruct (IH sources reduced ltac:(lia) ltac:(lia)) as (maps & E & LM & W).
      { intros i b' d' a' N1 N2 N3. exact (H (S i) b' d' a' N1 N2 N3). }
      rewrite E. cbn [bind]. exists (m :: maps). split; [reflexivity|]. split; [cbn [length]; lia|].
      intros [|i] m' b' d' N1 N2 N3; cbn [nth_error] in N1, N2, N3; [|exact (W i m' b' d' N1 N2 N3)].
      inversion N1; inversion N2; inversion N3; subst. intros idx. rewrite V. destruct (in_box b' idx) eqn:B.
      * apply in_box_range in B. split; [|contradiction]. intros _. do 2 f_equal. apply UN. rewrite PS. apply rank_lt. now apply point_local.
      * split; [|reflexivity]. intros R. apply in_box_range in R. congruence.
Qed.
Lemma mapM_Forall2 {A B} (f : A -> result B) (R : A -> B -> Prop) l : (forall a, In a l -> exists b, f a = Ok b /\ R a b) ->
  exists r, mapM f l = Ok r /\ Forall2 R l r.
Proof.
  induction l as [|a l IH]; intros H; cbn [mapM]; [exists []; split; [reflexivity|constructor]|].
  destruct (H a (or_introl eq_refl)) as (b & E & RB). destruct IH as (r & ER & F); [intros x X; apply H; right; exact X|].
  rewrite E. cbn [bind]. rewrite ER. cbn [bind]. exists (b :: r). split; [reflexivity|constructor; assumption].
Qed.
Theorem tile_data : forall (A : Type) (fill : A) map_ tile_shape nscandim (sources : list (arr A)) D,
  sources <> [] -> Forall (fun d => length (shape d) <= nscandim) sources ->
  let sm := fun d : arr A => lookup map_ (shape d) in
  Forall (fun d => length (sm d) = D /\ usable_tile (shape d) (sm d)) sources -> 0 < D -> length tile_shape = D -> length sources <= prod tile_shape ->
  exists m out, max_shape (map (fun d => rev (line_shape (sm d) (prod (shape d)))) sources) = Ok m /\
    tile fill map_ tile_shape nscandim sources = Ok out /\ shape out = map2 Nat.mul m (rev tile_shape) /\
    (forall i d c ti, nth_error sources i = Some d -> inside (sm d) c -> point (sm d) c < full_lines (sm d) (prod (shape d)) ->
       inside (rev tile_shape) ti -> rank (rev tile_shape) ti = i ->
       at_ out (map2 Nat.add (map2 Nat.mul ti m) (rev c)) = at_ d (unrank (shape d) (point (sm d) c))) /\
    (forall idx, (forall i d c ti, nth_error sources i = Some d -> inside (sm d) c -> point (sm d) c < full_lines (sm d) (prod (shape d)) ->
       inside (rev tile_shape) ti -> rank (rev tile_shape) ti = i -> idx <> map2 Nat.add (map2 Nat.mul ti m) (rev c)) -> at_ out idx = fill).
Proof.
  intros A fill map_ tile_shape nscandim sources D NE FN sm FU DP LT LP.
  set (R := fun (s : list nat) (p : list nat * list nat) => snd p = line_shape (lookup map_ s) (prod s) /\ exists s', tile_source s (fst p) s' (prod (snd p))).
  assert (SC : map (fun d => firstn nscandim (shape d)) sources = map shape sources).
  { apply map_ext_in. intros d I. rewrite Forall_forall in FN. apply firstn_all2. now apply FN. }
  assert (DT : map (fun d => skipn nscandim (shape d)) sources = map (fun _ => []) sources).
  { apply map_ext_in. intros d I. rewrite Forall_forall in FN. apply skipn_all2. now apply FN. }
  rewrite Forall_forall in FU.
  assert (NM : forall d, In d sources -> sm d <> []).
  { intros d I Z. destruct (FU d I) as [L _]. rewrite Z in L. cbn in L. lia. }
  destruct (mapM_Forall2 (fun s => let! r := match_shapes [s; lookup map_ s] true in pair_shapes r) R (map shape sources)) as (pairs & MP & FP).
  { intros s I. apply in_map_iff in I. destruct I as (d & <- & I). destruct (tile_pair (shape d) (sm d) (NM d I) (proj2 (FU d I))) as (a & s' & E & T).
    exists (a, line_shape (sm d) (prod (shape d))). split; [exact E|]. split; [reflexivity|]. exists s'. exact T. }
  assert (LPR : length pairs = length sources) by (rewrite <- (Forall2_length _ _ _ FP); apply map_length).
  assert (RS : map (fun p => rev (snd p)) pairs = map (fun d => rev (line_shape (sm d) (prod (shape d)))) sources).
  { clear -FP. revert pairs FP. induction sources as [|d sources IH]; intros pairs FP; inversion FP; subst; [reflexivity|]. cbn [map]. f_equal; [|now apply IH].
    destruct H1 as [-> _]. reflexivity. }
  set (shapes := map (fun d => rev (line_shape (sm d) (prod (shape d)))) sources) in *.
  assert (LL : forall d, In d sources -> length (line_shape (sm d) (prod (shape d))) = D).
  { intros d I. destruct (FU d I) as [L _]. unfold line_shape. rewrite app_length. cbn [length]. rewrite <- L. rewrite (app_removelast_last 0 (NM d I)) at 2. rewrite app_length. reflexivity. }
  assert (FS : Forall (fun s => length s = D) shapes).
  { apply Forall_forall. intros s I. apply in_map_iff in I. destruct I as (d & <- & I). rewrite rev_length. now apply LL. }
  assert (NSH : shapes <> []) by (unfold shapes; destruct sources; [congruence|discriminate]).
  assert (LSH : length shapes = length sources) by apply map_length.
  assert (LTR : length (rev tile_shape) = D) by (rewrite rev_length; exact LT).
  assert (NT : rev tile_shape <> []) by (intros Z; rewrite Z in LTR; cbn in LTR; lia).
  assert (LPT : length shapes <= prod (rev tile_shape)) by (rewrite prod_rev; lia).
  destruct (tile_ok false (rev tile_shape) shapes D NSH FS LTR NT LPT) as (m & boxes & TI & LM & _ & LB & BX & DJ).
  destruct (max_shape_ok shapes D NSH FS) as (m' & MM & _ & _).
  assert (EM : m' = m).
  { destruct (tile_indices_core false (rev tile_shape) shapes D NSH FS LTR NT LPT) as (m2 & MM2 & LM2 & _ & TI2). assert (m' = m2) by congruence. subst m2.
    rewrite TI in TI2. assert (EQ : map2 Nat.mul m (rev tile_shape) = map2 Nat.mul m' (rev tile_shape)) by congruence.
    assert (TP : Forall (fun x => x <> 0) (rev tile_shape)).
    { apply Forall_forall. intros x X. intros ->. apply in_split in X. destruct X as (l1 & l2 & X). rewrite X, prod_app, prod_cons in LPT.
      destruct shapes; [congruence|]. cbn [length] in LPT. lia. }
    rewrite <- LM in LM2. rewrite <- LTR in LM. clear -EQ TP LM LM2. revert m m' EQ LM LM2. induction TP as [|t ts T TP IH]; intros [|x m] [|y m'] EQ L1 L2; cbn [length map2] in *; try lia; [reflexivity|].
    inversion EQ as [[E1 E2]]. f_equal; [apply Nat.mul_cancel_r in E1; congruence|]. apply IH; [exact E2|lia|lia]. }
  subst m'.
  assert (LR : length (map fst pairs) = length sources) by (rewrite map_length; exact LPR).
  assert (MD : max_shape (map (fun _ : arr A => []) sources) = Ok []).
  { destruct sources as [|d0 sources']; [congruence|]. cbn [map]. unfold max_shape. replace (forallb _ _) with true.
    - clear. f_equal. induction sources'; cbn [map fold_left map2]; auto.
    - symmetry. apply forallb_forall. intros s I. apply in_map_iff in I. destruct I as (? & <- & _). reflexivity. }
  destruct (tile_maps_ok (map2 Nat.mul m (rev tile_shape)) boxes sources (map fst pairs) ltac:(congruence) LR) as (maps & EMAPS & LMAPS & W).
  { intros i b d a N1 N2 N3. assert (NS : nth_error shapes i = Some (rev (line_shape (sm d) (prod (shape d))))) by (unfold shapes; now apply (map_nth_error (fun d => rev (line_shape (sm d) (prod (shape d)))))).
    destruct (BX i b _ N1 NS) as [FB EX]. split; [exact FB|].
    pose proof (Forall2_nth_error _ _ _ FP i) as Q. rewrite (map_nth_error shape _ _ N2) in Q. destruct (nth_error pairs i) as [p|] eqn:NP; [|contradiction].
    apply (map_nth_error fst) in NP. assert (fst p = a) by congruence. subst a. destruct Q as [Q1 (s' & Q2)]. exists s'. rewrite EX, prod_rev. rewrite Q1 in Q2. exact Q2. }
  exists m, (virtual (map2 Nat.mul m (rev tile_shape)) fill maps). split; [exact MM|]. split; [|split; [reflexivity|]].
  { unfold tile. rewrite SC, DT, MP. cbn [bind]. destruct pairs as [|p0 pairs']; [cbn in LPR; destruct sources; [congruence|discriminate LPR]|].
    cbv zeta. rewrite RS, TI. cbn [bind]. rewrite MD. cbn [bind]. rewrite app_nil_r, EMAPS. reflexivity. }
  assert (PZ : forall d, In d sources -> prod (sm d) <> 0).
  { intros d I. destruct (FU d I) as [_ (_ & PL & _)]. lia. }
  (* the box of a source *)
  assert (BOX : forall i d, nth_error sources i = Some d -> exists b mp ti, nth_error boxes i = Some b /\ nth_error maps i = Some mp /\
     inside (rev tile_shape) ti /\ rank (rev tile_shape) ti = i /\ offsets b = map2 Nat.mul ti m /\ extents b = rev (line_shape (sm d) (prod (shape d)))).
  { intros i d N. assert (LI : i < length sources) by (apply nth_error_Some; congruence).
    destruct (nth_error boxes i) as [b|] eqn:NB; [|apply nth_error_None in NB; lia]. destruct (nth_error maps i) as [mp|] eqn:NMP; [|apply nth_error_None in NMP; lia].
    destruct (tile_order false (rev tile_shape) shapes D i b m boxes NSH FS LTR NT LPT MM TI NB) as (ti & IT & OF & RK).
    assert (NS : nth_error shapes i = Some (rev (line_shape (sm d) (prod (shape d))))) by (unfold shapes; now apply (map_nth_error (fun d => rev (line_shape (sm d) (prod (shape d)))))).
    exists b, mp, ti. split; [reflexivity|]. split; [reflexivity|]. split; [exact IT|]. split; [exact RK|]. split; [exact OF|]. exact (proj2 (BX i b _ NB NS)). }
  split.
  - intros i d c ti N IC PC IT RK. destruct (BOX i d N) as (b & mp & ti' & NB & NMP & IT' & RK' & OF & EX).
    assert (ti' = ti) by (rewrite <- (unrank_rank _ _ IT), <- (unrank_rank _ _ IT'), RK, RK'; reflexivity). subst ti'.
    pose proof (nth_error_In _ _ N) as ID.
    assert (IL : inside (line_shape (sm d) (prod (shape d))) c) by (apply line_inside; [now apply NM|now apply PZ|split; assumption]).
    assert (IRL : inside (extents b) (rev c)) by (rewrite EX; now apply inside_rev).
    assert (LC : length (rev c) = length b) by (rewrite (inside_length _ _ IRL); apply extents_length).
    assert (IR : in_range (map2 Nat.add (offsets b) (rev c)) b).
    { apply box_point. rewrite <- LC, firstn_all. split; [lia|exact IRL]. }
    rewrite <- OF. unfold virtual. cbn [at_]. destruct (W i mp b d NMP NB N (map2 Nat.add (offsets b) (rev c))) as [W1 _]. specialize (W1 IR).
    rewrite local_point, EX, rank_rev in W1 by (try exact LC; now apply inside_length).
    assert (PL : point (line_shape (sm d) (prod (shape d))) c = point (sm d) c).
    { unfold line_shape. rewrite (point_last _ _ (last (sm d) 0)), <- app_removelast_last by (now apply NM). reflexivity. }
    rewrite PL in W1. apply (fold_one maps _ fill i mp _ NMP W1).
    intros j' mp' NMP' NEJ. assert (LJ : j' < length sources) by (rewrite <- LMAPS; apply nth_error_Some; congruence).
    destruct (nth_error sources j') as [d'|] eqn:NJ; [|apply nth_error_None in NJ; lia]. destruct (nth_error boxes j') as [b'|] eqn:NBJ; [|apply nth_error_None in NBJ; lia].
    apply (proj2 (W j' mp' b' d' NMP' NBJ NJ _)). intros IR'. apply NEJ. symmetry. exact (DJ i j' b b' _ NB NBJ IR IR').
  - intros idx H. unfold virtual. cbn [at_]. apply fold_none. apply Forall_forall. intros mp I. apply In_nth_error in I. destruct I as (i & NMP).
    assert (LI : i < length sources) by (rewrite <- LMAPS; apply nth_error_Some; congruence).
    destruct (nth_error sources i) as [d|] eqn:N; [|apply nth_error_None in N; lia]. destruct (BOX i d N) as (b & mp' & ti & NB & NMP' & IT & RK & OF & EX).
    apply (proj2 (W i mp b d NMP NB N idx)). intros IR. destruct (point_local b idx IR) as [PI IL]. rewrite EX in IL.
    apply inside_rev in IL. rewrite rev_involutive in IL. pose proof (nth_error_In _ _ N) as ID. apply line_inside in IL; [|now apply NM|now apply PZ].
    apply (H i d (rev (local b idx)) ti N (proj1 IL) (proj2 IL) IT RK). rewrite rev_involutive, <- OF. exact PI.
Qed.

(* ---- what goes wrong ---- *)
Definition ar (sh : list nat) (base : nat) : arr nat := mkArr sh (fun idx => base + rank sh idx).
(* an interrupted scan with a detector: the pixels of different points are mixed *)
Theorem stack_pixels_refuted : exists (A B : arr nat) map_ out, shape A = [4; 3] /\ shape B = [3; 3] /\ lookup map_ [4] = [2; 2] /\
  stack false false 0 map_ 1 false [A; B] = Ok (Virtual out) /\ shape out = [2; 2; 2; 3] /\
  inside [2; 2] [1; 0] /\ point [2; 2] [1; 0] = 1 /\ at_ out [1; 0; 1; 0] <> at_ B [1; 0] /\ at_ out [1; 0; 1; 0] <> 0.
Proof.
  exists (ar [4; 3] 100), (ar [3; 3] 200), [(KTuple [4], [2; 2])]. eexists. split; [reflexivity|]. split; [reflexivity|]. split; [reflexivity|].
  split; [vm_compute; reflexivity|]. split; [reflexivity|]. split; [repeat constructor|]. split; [reflexivity|]. split; vm_compute; discriminate.
Qed.
(* a source with several rows that does not fill the scan loses points in the middle *)
Theorem stack_rows_refuted : exists (A B : arr nat) out, shape A = [3; 4] /\ shape B = [2; 5] /\
  stack false false 0 [] 2 false [A; B] = Ok (Virtual out) /\ at_ B [0; 3] = 203 /\ at_ B [1; 0] = 205 /\
  at_ out [1; 1; 0] = 205 /\ (forall i j, i < 5 -> j < 3 -> at_ out [1; i; j] <> 203).
Proof.
  exists (ar [3; 4] 100), (ar [2; 5] 200). eexists. split; [reflexivity|]. split; [reflexivity|]. split; [vm_compute; reflexivity|].
  split; [reflexivity|]. split; [reflexivity|]. split; [vm_compute; reflexivity|].
  intros i j I J. do 5 (destruct i as [|i]; [do 3 (destruct j as [|j]; [vm_compute; discriminate|]); lia|]). lia.
Qed.
(* one scan stopped before the end of its first line: no merge at all *)
Theorem stack_short_refuted : forall (A : Type) text et (fill : A) map_ ns n (sources : list (arr A)) d sm,
  max_shape (map shape sources) = Ok [n] -> (ns = false \/ length sources <> 1) -> lookup map_ [n] = sm -> sm <> [] ->
  In d sources -> prod (shape d) <> prod sm -> one_row (shape d) -> full_lines sm (prod (shape d)) = 0 -> 
  exists e, stack text et fill map_ 1 ns sources = Err e.
Proof.
  intros A text et fill map_ ns n sources d sm MS NS LK NM ID NEQ ROW FL.
  unfold stack. rewrite MS. cbn [bind firstn skipn]. cbv zeta. rewrite LK, app_nil_r. clear LK.
  set (K := length sources) in *. 
  assert (LS : layout_slicing (shape d) (rev (skipn 1 (K :: rev sm))) = Err ValueError).
  { cbn [skipn]. rewrite rev_involutive. unfold layout_slicing.
    assert (ME : match_shapes [shape d; sm] false = Err ValueError); [|now rewrite ME].
    apply match_error.
    - discriminate.
    - repeat constructor; [apply ROW|exact NM].
    - intros (S & H). inversion H; subst. inversion H3; subst. congruence.
    - intros S C. inversion C as [|? ? (a & A1 & A2) C2]; subst. inversion C2 as [|? ? (b & B1 & B2) _]; subst.
      destruct ROW as [ND R1]. rewrite R1 in *. rewrite Nat.mul_1_l in *. unfold full_lines in FL.
      destruct (Nat.eq_dec (prod (removelast sm)) 0) as [Z|Z]; [rewrite Z in B2; lia|]. apply Nat.eq_mul_0_l in FL; [|exact Z].
      apply Nat.div_small_iff in FL; [|exact Z]. rewrite (prod_last (shape d) ND), R1, (prod_last sm NM) in FL.
      destruct b as [|b]; [lia|]. assert (prod (removelast sm) <= prod (removelast sm) * last sm 0) by nia. nia. }
  assert (G : forall l i, In d l -> exists e, stack_maps (K :: rev sm) i l = Err e).
  { induction l as [|d' l IH]; intros i; [intros []|]. intros [->|I]; cbn [stack_maps]; [rewrite LS; eexists; reflexivity|].
    destruct (layout_slicing (shape d') _) as [[sidx lidx]|e]; cbn [bind]; [|eexists; reflexivity].
    destruct (mapping _ _ _ _); cbn [bind]; [|eexists; reflexivity]. destruct (IH (S i) I) as (e & E). rewrite E. eexists; reflexivity. }
  destruct (G sources 0 ID) as (e & E). exists e. destruct ns; [|rewrite E; reflexivity].
  destruct NS as [C|NS]; [discriminate C|]. destruct sources as [|s1 [|s2 r]]; [contradiction|cbn in NS; lia|]. rewrite E. reflexivity.
Qed.
(* the map of a mesh scan is never used *)
Theorem mesh_refuted : forall fast slow k, lookup (mesh_map fast slow) k = k.
Proof. reflexivity. Qed.
Theorem stack_mesh_refuted : forall (A : Type) text et (fill : A) fast slow nscandim ns (sources : list (arr A)),
  stack text et fill (mesh_map fast slow) nscandim ns sources = stack text et fill [] nscandim ns sources.
Proof. reflexivity. Qed.
(* tiles with a detector *)
Theorem tile_detector_refuted : exists (A : arr nat) map_, shape A = [3; 2] /\ lookup map_ [3] = [2; 2] /\ usable_tile [3] [2; 2] /\
  tile 0 map_ [1; 1] 1 [A] = Err TypeError.
Proof.
  exists (ar [3; 2] 100), [(KTuple [3], [2; 2])]. split; [reflexivity|]. split; [reflexivity|]. split; [|reflexivity].
  split; [discriminate|]. split; [unfold prod; cbn; lia|]. right. split; [split; [discriminate|reflexivity]|]. vm_compute. lia.
Qed.
(* tiles with more points than the scan *)
Theorem tile_more_refuted : exists (A : arr nat) map_ e, shape A = [5] /\ lookup map_ [5] = [2; 2] /\ tile 0 map_ [1; 1] 1 [A] = Err e.
Proof. exists (ar [5] 100), [(KTuple [5], [2; 2])]. eexists. split; [reflexivity|]. split; [reflexivity|]. vm_compute. reflexivity. Qed.
