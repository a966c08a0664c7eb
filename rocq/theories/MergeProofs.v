From Verif Require Import GridSpec GridProofs MergeModel MergeSpec.
From Coq Require Import Lia.
Local Open Scope nat_scope.

(* ---- sizes ---- *)
#[local] Arguments prod : simpl never.
Lemma prod_one n : prod [n] = n.
Proof. unfold prod. cbn. lia. Qed.
Lemma prod_nil : prod [] = 1.
Proof. reflexivity. Qed.
Lemma prod_cons n s : prod (n :: s) = n * prod s.
Proof. reflexivity. Qed.
Lemma prod_app a b : prod (a ++ b) = prod a * prod b.
Proof.
  induction a as [|x a IH]; [change (prod b = 1 * prod b); lia|]. change (x * prod (a ++ b) = x * prod a * prod b). rewrite IH. lia.
Qed.
Lemma prod_rev a : prod (rev a) = prod a.
Proof. induction a as [|x a IH]; [reflexivity|]. cbn [rev]. rewrite prod_app, IH, prod_one, prod_cons. lia. Qed.
Lemma prod_last s : s <> [] -> prod s = prod (removelast s) * last s 0.
Proof. intros H. rewrite (app_removelast_last 0 H) at 1. rewrite prod_app. rewrite prod_one. lia. Qed.
Lemma np_lcm_step m i : m * i / Nat.gcd m i = Nat.lcm m i.
Proof.
  unfold Nat.lcm. destruct (Nat.eq_dec (Nat.gcd m i) 0) as [Z|NZ].
  - apply Nat.gcd_eq_0 in Z. destruct Z as [-> ->]. reflexivity.
  - rewrite Nat.divide_div_mul_exact; [reflexivity|exact NZ|apply Nat.gcd_divide_r].
Qed.
Lemma np_lcm_from l : forall m, let r := fold_left (fun m i => m * i / Nat.gcd m i) l m in
  Nat.divide m r /\ Forall (fun i => Nat.divide i r) l /\ (forall c, Nat.divide m c -> Forall (fun i => Nat.divide i c) l -> Nat.divide r c).
Proof.
  induction l as [|i l IH]; intros m; cbn [fold_left].
  - cbv zeta. split; [apply Nat.divide_refl|]. split; [constructor|]. auto.
  - rewrite np_lcm_step. destruct (IH (Nat.lcm m i)) as (A & B & C). cbv zeta. split; [|split].
    + eapply Nat.divide_trans; [apply Nat.divide_lcm_l|exact A].
    + constructor; [eapply Nat.divide_trans; [apply Nat.divide_lcm_r|exact A]|exact B].
    + intros c M F. inversion F; subst. apply C; [apply Nat.lcm_least; assumption|assumption].
Qed.
Lemma np_lcm_ok l : Forall (fun i => Nat.divide i (np_lcm l)) l /\ forall c, Forall (fun i => Nat.divide i c) l -> Nat.divide (np_lcm l) c.
Proof. destruct (np_lcm_from l 1) as (_ & B & C). split; [exact B|]. intros c F. apply C; [exists c; lia|exact F]. Qed.
Lemma list_min_le l : forall a, list_min a l <= a /\ Forall (fun x => list_min a l <= x) l.
Proof.
  induction l as [|b l IH]; intros a; cbn [list_min]; [split; [lia|constructor]|]. destruct (IH (Nat.min a b)) as [H F].
  split; [lia|]. constructor; [lia|exact F].
Qed.
Lemma list_min_ge l : forall a m, m <= a -> Forall (fun x => m <= x) l -> m <= list_min a l.
Proof. induction l as [|b l IH]; intros a m H F; cbn [list_min]; [exact H|]. inversion F; subst. apply IH; [lia|assumption]. Qed.
Lemma shape_eqb_true a b : shape_eqb a b = true <-> a = b.
Proof.
  split; [|intros ->; apply shape_eqb_refl]. unfold shape_eqb. revert b. induction a as [|x a IH]; intros [|y b]; cbn; try discriminate; [reflexivity|].
  intros H. apply Bool.andb_true_iff in H. destruct H as [L H]. apply Bool.andb_true_iff in H. destruct H as [E H]. apply Nat.eqb_eq in E. subst y.
  f_equal. apply IH. rewrite L, H. reflexivity.
Qed.
Lemma shape_eqb_false a b : a <> b -> shape_eqb a b = false.
Proof. intros H. destruct (shape_eqb a b) eqn:E; [apply shape_eqb_true in E; contradiction|reflexivity]. Qed.

(* ---- match_shapes ---- *)
Theorem match_equal : forall shapes keep, shapes <> [] -> (exists S, Forall (fun s => prod s = S) shapes) ->
  match_shapes shapes keep = Ok (if keep then shapes else map (fun _ => []) shapes).
Proof.
  intros shapes keep NE [S F]. unfold match_shapes. destruct shapes as [|s0 rest]; [congruence|]. cbn [map]. inversion F; subst.
  replace (forallb (Nat.eqb (prod s0)) (map prod rest)) with true; [reflexivity|]. symmetry. apply forallb_forall. intros x I.
  apply in_map_iff in I. destruct I as (s & <- & I). rewrite Forall_forall in H2. apply Nat.eqb_eq. symmetry. now apply H2.
Qed.
Lemma not_equal_sizes s0 rest : forallb (Nat.eqb (prod s0)) (map prod rest) = false <-> ~ exists S, Forall (fun s => prod s = S) (s0 :: rest).
Proof.
  split.
  - intros H [S F]. inversion F; subst. assert (T : forallb (Nat.eqb (prod s0)) (map prod rest) = true); [|congruence].
    apply forallb_forall. intros x I. apply in_map_iff in I. destruct I as (s & <- & I). rewrite Forall_forall in H3. apply Nat.eqb_eq. symmetry. now apply H3.
  - intros H. destruct (forallb _ _) eqn:E; [|reflexivity]. exfalso. apply H. exists (prod s0). constructor; [reflexivity|]. rewrite forallb_forall in E.
    apply Forall_forall. intros s I. symmetry. apply Nat.eqb_eq, E. now apply in_map.
Qed.
Lemma match_core shapes keep (NE : shapes <> []) (NT : Forall (fun s => s <> []) shapes) (NS : ~ exists S, Forall (fun s => prod s = S) shapes) :
  exists mx ch, mx = list_min (prod (hd [] shapes)) (map prod (tl shapes)) /\ ch = np_lcm (map (fun s => prod (removelast s)) shapes) /\
    (match_shapes shapes keep = if mx / ch =? 0 then Err ValueError else
      Ok (map (fun s => let new := removelast s ++ [mx / ch * ch / prod (removelast s)] in if shape_eqb s new then [] else new) shapes)) /\
    Forall (fun s => mx <= prod s) shapes /\
    (forall S, common_size shapes S -> S <= mx / ch * ch) /\
    (mx / ch <> 0 -> common_size shapes (mx / ch * ch) /\ Forall (fun s => prod (removelast s) <> 0 /\ Nat.divide (prod (removelast s)) (mx / ch * ch)) shapes).
Proof.
  destruct shapes as [|s0 rest]; [congruence|]. eexists. eexists. split; [reflexivity|]. split; [reflexivity|].
  set (mx := list_min _ _). set (ch := np_lcm _).
  assert (MX : Forall (fun s => mx <= prod s) (s0 :: rest)).
  { destruct (list_min_le (map prod rest) (prod s0)) as [H F]. constructor; [exact H|]. rewrite Forall_map in F. exact F. }
  destruct (np_lcm_ok (map (fun s => prod (removelast s)) (s0 :: rest))) as [DV LE]. fold ch in DV, LE. rewrite Forall_map in DV.
  split; [|split; [exact MX|split]].
  - unfold match_shapes. cbn [map]. rewrite (proj2 (not_equal_sizes s0 rest) NS). reflexivity.
  - intros S C. assert (D : Nat.divide ch S).
    { apply LE. rewrite Forall_map. eapply Forall_impl; [|exact C]. intros s (n & _ & ->). exists n. lia. }
    assert (SM : S <= mx).
    { assert (G : Forall (fun s => S <= prod s) (s0 :: rest)).
      { unfold common_size in C. rewrite Forall_forall in C, NT |- *. intros s I. destruct (C s I) as (n & L & ->). rewrite (prod_last s) by (now apply NT). nia. }
      inversion G; subst. apply list_min_ge; [assumption|]. rewrite Forall_map. assumption. }
    destruct D as [q ->]. destruct (Nat.eq_dec ch 0) as [->|NZ]; [lia|].
    apply Nat.mul_le_mono_r. apply Nat.div_le_lower_bound; [exact NZ|lia].
  - intros NZ. assert (CH : ch <> 0) by (intros Z; rewrite Z in NZ; apply NZ; reflexivity).
    assert (QM : mx / ch * ch <= mx) by (rewrite Nat.mul_comm; apply Nat.mul_div_le; exact CH).
    assert (D2 : Forall (fun s => prod (removelast s) <> 0 /\ Nat.divide (prod (removelast s)) (mx / ch * ch)) (s0 :: rest)).
    { eapply Forall_impl; [|exact DV]. intros s [q Q]. cbn beta in *. split; [intros Z; lia|]. exists (mx / ch * q). rewrite Q. lia. }
    split; [|exact D2]. unfold common_size. rewrite Forall_forall in *. intros s I. destruct (D2 s I) as [PZ [q Q]]. exists q.
    split; [|lia]. specialize (MX s I). rewrite (prod_last s) in MX by (now apply NT). nia.
Qed.
Theorem match_ok : forall shapes keep news, Forall (fun s => s <> []) shapes -> (~ exists S, Forall (fun s => prod s = S) shapes) ->
  match_shapes shapes keep = Ok news ->
  exists S, 0 < S /\ common_size shapes S /\ (forall S', common_size shapes S' -> S' <= S) /\
    Forall2 (fun s new => exists n, n <= last s 0 /\ resolved s new = removelast s ++ [n] /\ prod (resolved s new) = S /\ (new = [] <-> n = last s 0)) shapes news.
Proof.
  intros shapes keep news NT NS E. assert (NE : shapes <> []) by (intros ->; discriminate E).
  destruct (match_core shapes keep NE NT NS) as (mx & ch & _ & _ & M & MX & MAX & C). rewrite M in E.
  destruct (Nat.eqb_spec (mx / ch) 0) as [Z|NZ]; [discriminate E|]. destruct (C NZ) as [CS DV]. clear C M.
  exists (mx / ch * ch). split; [|split; [exact CS|split; [exact MAX|]]].
  - assert (ch <> 0) by (intros ZZ; rewrite ZZ in NZ; apply NZ; reflexivity). nia.
  - assert (E' : news = map (fun s => let new := removelast s ++ [mx / ch * ch / prod (removelast s)] in if shape_eqb s new then [] else new) shapes) by congruence.
    subst news. clear E NS NE MAX MX. unfold common_size in CS. induction shapes as [|s shapes IH]; cbn [map]; [constructor|].
    inversion NT; subst. inversion DV; subst. inversion CS; subst. destruct H3 as [PZ [q Q]]. destruct H5 as (n & LN & EN).
    constructor; [|apply IH; assumption].
    assert (EQ : mx / ch * ch / prod (removelast s) = n) by (rewrite EN, Nat.mul_comm; apply Nat.div_mul; exact PZ). rewrite EQ. cbv zeta. exists n. split; [exact LN|].
    assert (P : prod (removelast s ++ [n]) = mx / ch * ch) by (rewrite prod_app, EN, prod_one; lia).
    destruct (shape_eqb s (removelast s ++ [n])) eqn:SE.
    + apply shape_eqb_true in SE. cbn [resolved]. split; [exact SE|]. split; [rewrite SE; exact P|]. split; [|reflexivity]. intros _. rewrite SE. symmetry. apply last_last.
    + assert (R : resolved s (removelast s ++ [n]) = removelast s ++ [n]) by (unfold resolved; destruct (removelast s); reflexivity).
      rewrite R. split; [reflexivity|]. split; [exact P|]. split; [intros Z; destruct (removelast s); discriminate Z|].
      intros ->. rewrite <- (app_removelast_last 0 H1), shape_eqb_refl in SE. discriminate SE.
Qed.
Theorem match_error : forall shapes keep, shapes <> [] -> Forall (fun s => s <> []) shapes -> (~ exists S, Forall (fun s => prod s = S) shapes) ->
  (match_shapes shapes keep = Err ValueError <-> forall S, common_size shapes S -> S = 0).
Proof.
  intros shapes keep NE NT NS. destruct (match_core shapes keep NE NT NS) as (mx & ch & _ & _ & M & MX & MAX & C). rewrite M.
  destruct (Nat.eqb_spec (mx / ch) 0) as [Z|NZ].
  - split; [|reflexivity]. intros _ S CS. apply MAX in CS. rewrite Z in CS. lia.
  - split; [discriminate|]. intros H. destruct (C NZ) as [CS _]. apply H in CS.
    assert (ch <> 0) by (intros ZZ; rewrite ZZ in NZ; apply NZ; reflexivity). nia.
Qed.
Theorem match_nothing : forall keep, match_shapes [] keep = Err IndexError.
Proof. reflexivity. Qed.
(* keep_shapes_when_equal only holds when all sizes are equal *)
Theorem match_keep_refuted : exists s1 s2 n1 n2, prod s1 <> 0 /\ match_shapes [s1; s2] true = Ok [n1; n2] /\ prod n1 <> prod n2.
Proof. exists [12], [4; 4], [], [4; 3]. split; [discriminate|]. split; [reflexivity|discriminate]. Qed.
Theorem match_scalar_refuted : exists s news, match_shapes [[]; s] true = Ok news /\ exists new, nth_error news 0 = Some new /\ length new <> length (@nil nat).
Proof. exists [5]. eexists. split; [reflexivity|]. eexists. split; [reflexivity|]. discriminate. Qed.

(* ---- positions ---- *)
Lemma rank_lt sh idx : inside sh idx -> rank sh idx < prod sh.
Proof.
  induction 1 as [|i n idx sh L F IH]; cbn [rank]; [rewrite prod_nil; lia|]. rewrite prod_cons. nia.
Qed.
Lemma inside_prod sh idx : inside sh idx -> 0 < prod sh.
Proof. intros H. apply rank_lt in H. lia. Qed.
Lemma unrank_rank sh idx : inside sh idx -> unrank sh (rank sh idx) = idx.
Proof.
  induction 1 as [|i n idx sh L F IH]; cbn [rank unrank]; [reflexivity|]. pose proof (rank_lt _ _ F).
  rewrite Nat.div_add_l by lia. rewrite Nat.div_small by exact H. rewrite (Nat.add_comm (i * prod sh)), Nat.mod_add by lia. rewrite Nat.mod_small by exact H. rewrite IH. f_equal. lia.
Qed.
Lemma unrank_inside sh : forall r, r < prod sh -> inside sh (unrank sh r).
Proof.
  induction sh as [|n sh IH]; intros r L; cbn [unrank]; [constructor|]. rewrite prod_cons in L. assert (prod sh <> 0) by nia. constructor.
  - apply Nat.div_lt_upper_bound; [assumption|]. lia.
  - apply IH. now apply Nat.mod_upper_bound.
Qed.
Lemma rank_unrank sh : forall r, r < prod sh -> rank sh (unrank sh r) = r.
Proof.
  induction sh as [|n sh IH]; intros r L; cbn [unrank rank]; [rewrite prod_nil in L; lia|]. rewrite prod_cons in L. assert (prod sh <> 0) by nia.
  rewrite IH by (now apply Nat.mod_upper_bound). rewrite (Nat.div_mod r (prod sh)) at 3 by assumption. lia.
Qed.
Lemma rank_app a b x y : length x = length a -> rank (a ++ b) (x ++ y) = rank a x * prod b + rank b y.
Proof.
  revert x. induction a as [|n a IH]; intros [|i x] L; cbn [length] in L; try lia; cbn [app rank]; [lia|].
  rewrite IH by lia. rewrite prod_app. lia.
Qed.
Lemma unrank_app a b : forall q s, q < prod a -> s < prod b -> unrank (a ++ b) (q * prod b + s) = unrank a q ++ unrank b s.
Proof.
  induction a as [|n a IH]; intros q s LQ LS; cbn [app unrank].
  - change (prod []) with 1 in LQ. replace q with 0 by lia. reflexivity.
  - rewrite prod_cons in LQ. assert (PA : prod a <> 0) by nia. rewrite prod_app.
    assert (D : q * prod b + s = (q / prod a) * (prod a * prod b) + ((q mod prod a) * prod b + s)).
    { rewrite (Nat.div_mod q (prod a)) at 1 by exact PA. lia. }
    pose proof (Nat.mod_upper_bound q (prod a) PA) as MU.
    assert (SM : (q mod prod a) * prod b + s < prod a * prod b) by nia.
    assert (PP : prod a * prod b <> 0) by lia.
    assert (DIV : (q * prod b + s) / (prod a * prod b) = q / prod a) by (rewrite D, Nat.div_add_l by exact PP; rewrite (Nat.div_small _ _ SM); lia).
    assert (MOD : (q * prod b + s) mod (prod a * prod b) = (q mod prod a) * prod b + s).
    { rewrite D, Nat.add_comm, Nat.mod_add by exact PP. now apply Nat.mod_small. }
    rewrite DIV, MOD, IH by assumption. reflexivity.
Qed.
Lemma rank_rev sm c : length c = length sm -> rank (rev sm) (rev c) = point sm c.
Proof.
  revert c. induction sm as [|n sm IH]; intros [|i c] L; cbn [length] in L; try lia; [reflexivity|]. cbn [rev point].
  rewrite rank_app by (rewrite !rev_length; lia). rewrite IH by lia. cbn [rank]. rewrite prod_one, prod_nil. lia.
Qed.
Lemma inside_rev sh idx : inside sh idx -> inside (rev sh) (rev idx).
Proof.
  induction 1; cbn [rev]; [constructor|]. apply Forall2_app; [assumption|]. constructor; [assumption|constructor].
Qed.

(* ---- tiles ---- *)
Lemma map2_length {A B C} (f : A -> B -> C) : forall l1 l2, length l1 = length l2 -> length (map2 f l1 l2) = length l1.
Proof. induction l1; intros [|b l2] L; cbn [map2 length] in *; try lia. rewrite IHl1; lia. Qed.
Lemma max_fold rest : forall s0, Forall (fun s => length s = length s0) rest ->
  length (fold_left (map2 Nat.max) rest s0) = length s0 /\
  Forall (fun s => Forall2 le s (fold_left (map2 Nat.max) rest s0)) (s0 :: rest).
Proof.
  assert (R : forall s : list nat, Forall2 le s s) by (induction s; constructor; auto).
  assert (M1 : forall a b, length a = length b -> Forall2 le a (map2 Nat.max a b)).
  { induction a; intros [|y b] L; cbn [length map2] in *; try lia; constructor; [lia|]. apply IHa. lia. }
  assert (M2 : forall a b, length a = length b -> Forall2 le b (map2 Nat.max a b)).
  { induction a; intros [|y b] L; cbn [length map2] in *; try lia; constructor; [lia|]. apply IHa. lia. }
  assert (TR : forall a b c, Forall2 le a b -> Forall2 le b c -> Forall2 le a c).
  { intros a b c H. revert c. induction H; intros c' H'; inversion H'; subst; constructor; [lia|auto]. }
  induction rest as [|s rest IH]; intros s0 F; cbn [fold_left].
  - split; [reflexivity|]. constructor; [apply R|constructor].
  - inversion F; subst. destruct (IH (map2 Nat.max s0 s)) as [L G].
    + rewrite map2_length by lia. exact H2.
    + rewrite map2_length in L by lia. split; [exact L|]. inversion G; subst.
      constructor; [apply (TR _ (map2 Nat.max s0 s)); [apply M1; lia|assumption]|]. constructor; [apply (TR _ (map2 Nat.max s0 s)); [apply M2; lia|assumption]|assumption].
Qed.
Lemma max_shape_ok shapes d : shapes <> [] -> Forall (fun s => length s = d) shapes ->
  exists m, max_shape shapes = Ok m /\ length m = d /\ Forall (fun s => Forall2 le s m) shapes.
Proof.
  intros NE F. destruct shapes as [|s0 rest]; [congruence|]. inversion F; subst. unfold max_shape.
  replace (forallb (fun s => length s =? length s0) rest) with true.
  - destruct (max_fold rest s0 H2) as [L G]. eauto.
  - symmetry. apply forallb_forall. intros s I. rewrite Forall_forall in H2. apply Nat.eqb_eq. now apply H2.
Qed.
Lemma mapM_ok {A B} (f : A -> result B) (g : A -> B) l : (forall a, In a l -> f a = Ok (g a)) -> mapM f l = Ok (map g l).
Proof.
  induction l as [|a l IH]; intros H; cbn [mapM map]; [reflexivity|]. rewrite (H a (or_introl eq_refl)). cbn [bind].
  rewrite IH by (intros x X; apply H; right; exact X). reflexivity.
Qed.
Definition order_index (fortran : bool) (t : list nat) (r : nat) : list nat := if fortran then rev (unrank (rev t) r) else unrank t r.
Lemma order_index_inside fortran t r : r < prod t -> inside t (order_index fortran t r).
Proof.
  intros L. unfold order_index. destruct fortran; [|now apply unrank_inside]. rewrite <- (rev_involutive t) at 1. apply inside_rev, unrank_inside. now rewrite prod_rev.
Qed.
Lemma order_index_inj fortran t r r' : r < prod t -> r' < prod t -> order_index fortran t r = order_index fortran t r' -> r = r'.
Proof.
  intros L L' E. unfold order_index in E. destruct fortran.
  - apply (f_equal (@rev nat)) in E. rewrite !rev_involutive in E. rewrite <- (rank_unrank (rev t) r), <- (rank_unrank (rev t) r') by (now rewrite prod_rev). now rewrite E.
  - rewrite <- (rank_unrank t r), <- (rank_unrank t r') by assumption. now rewrite E.
Qed.
Lemma np_mul_ok a b : length a = length b -> np_mul a b = Ok (map2 Nat.mul a b).
Proof. intros L. unfold np_mul. rewrite L, Nat.eqb_refl. reflexivity. Qed.
Lemma tile_indices_core fortran t shapes d : shapes <> [] -> Forall (fun s => length s = d) shapes -> length t = d -> t <> [] -> length shapes <= prod t ->
  exists m, max_shape shapes = Ok m /\ length m = d /\ Forall (fun s => Forall2 le s m) shapes /\
    tile_indices fortran t shapes = Ok (map2 Nat.mul m t, map2 (fun r s => tile_box (order_index fortran t r) m s) (seq 0 (length shapes)) shapes).
Proof.
  intros NE F LT NT LP. destruct (max_shape_ok shapes d NE F) as (m & M & LM & G). exists m. split; [exact M|]. split; [exact LM|]. split; [exact G|].
  unfold tile_indices. rewrite M. cbn [bind]. rewrite np_mul_ok by congruence. cbn [bind].
  rewrite (mapM_ok _ (order_index fortran t)).
  - cbn [bind]. do 2 f_equal. generalize (seq 0 (length shapes)) as l. clear. intros l. revert shapes. induction l; intros [|s shapes]; cbn [map map2]; try reflexivity. now rewrite IHl.
  - intros r I. apply in_seq in I. unfold unravel_index. destruct t as [|t0 t']; [congruence|]. destruct (Nat.ltb_spec r (prod (t0 :: t'))); [reflexivity|lia].
Qed.
Lemma nth_error_map2 {A B C} (f : A -> B -> C) : forall l1 l2 i, nth_error (map2 f l1 l2) i =
  match nth_error l1 i, nth_error l2 i with Some a, Some b => Some (f a b) | _, _ => None end.
Proof.
  induction l1 as [|a l1 IH]; intros [|b l2] [|i]; cbn [map2 nth_error]; try reflexivity; [destruct (nth_error l1 i); reflexivity|apply IH].
Qed.
Lemma tile_box_fit t ti m s : inside t ti -> Forall2 le s m -> length t = length m ->
  fit_box (tile_box ti m s) (map2 Nat.mul m t) /\ extents (tile_box ti m s) = s.
Proof.
  intros I. revert m s. induction I as [|i n ti t L F IH]; intros m s G E; destruct G as [|x y s m LE G]; cbn [length] in E; try lia; [split; [constructor|reflexivity]|].
  unfold tile_box. cbn [combine map2 fst snd]. destruct (IH m s G ltac:(lia)) as [H1 H2]. split.
  - constructor; [cbn [fst snd]; nia|exact H1].
  - cbn [extents map snd]. f_equal. exact H2.
Qed.
Lemma tile_box_disjoint t ti ti' m s s' idx : inside t ti -> inside t ti' -> ti <> ti' -> Forall2 le s m -> Forall2 le s' m -> length t = length m ->
  in_range idx (tile_box ti m s) -> in_range idx (tile_box ti' m s') -> False.
Proof.
  intros I. revert ti' m s s' idx. induction I as [|i n ti t L F IH]; intros ti' m s s' idx I' NE G G' E R R'; inversion I'; subst.
  - apply NE. reflexivity.
  - rename x into i2, l into ti2. destruct G as [|x y s m LE G]; cbn [length] in E; [lia|]. inversion G' as [|x' y' s2 m2 LE' G2 E1 E2]; subst.
    unfold tile_box in R, R'. cbn [combine map2 fst snd] in R, R'.
    inversion R as [|j p idx0 b0 B1 R0 E1 E2]; subst. inversion R' as [|j' p' idx1 b1 B2 R1 E1 E2]; subst. cbn [fst snd] in *. destruct (Nat.eq_dec i i2) as [->|NI].
    + apply (IH ti2 m s s2 idx0); auto; try lia. intros ->. apply NE. reflexivity.
    + assert (i < i2 \/ i2 < i) by lia. nia.
Qed.
Theorem tile_ok : forall fortran t shapes d, shapes <> [] -> Forall (fun s => length s = d) shapes -> length t = d -> t <> [] -> length shapes <= prod t ->
  exists m boxes, tile_indices fortran t shapes = Ok (map2 Nat.mul m t, boxes) /\ length m = d /\ Forall (fun s => Forall2 le s m) shapes /\
    length boxes = length shapes /\
    (forall i b s, nth_error boxes i = Some b -> nth_error shapes i = Some s -> fit_box b (map2 Nat.mul m t) /\ extents b = s) /\
    (forall i j b b' idx, nth_error boxes i = Some b -> nth_error boxes j = Some b' -> in_range idx b -> in_range idx b' -> i = j).
Proof.
  intros fortran t shapes d NE F LT NT LP. destruct (tile_indices_core fortran t shapes d NE F LT NT LP) as (m & _ & LM & G & E).
  eexists m, _. split; [exact E|]. split; [exact LM|]. split; [exact G|]. split; [rewrite map2_length; rewrite seq_length; reflexivity|].
  rewrite Forall_forall in G.
  assert (NB : forall i b, nth_error (map2 (fun r s => tile_box (order_index fortran t r) m s) (seq 0 (length shapes)) shapes) i = Some b ->
    exists s, nth_error shapes i = Some s /\ b = tile_box (order_index fortran t i) m s /\ i < prod t).
  { intros i b H. rewrite nth_error_map2 in H. destruct (nth_error shapes i) as [s|] eqn:S; [|destruct (nth_error (seq 0 (length shapes)) i); discriminate H].
    assert (L : i < length shapes) by (apply nth_error_Some; congruence).
    rewrite (nth_error_nth' _ 0) in H by (rewrite seq_length; exact L). rewrite seq_nth in H by exact L. cbn [plus] in H. exists s. split; [reflexivity|].
    split; [congruence|lia]. }
  split.
  - intros i b s Hb Hs. destruct (NB i b Hb) as (s' & S & -> & L). assert (s' = s) by congruence. subst s'.
    apply tile_box_fit; [now apply order_index_inside|apply G; now apply nth_error_In in Hs|congruence].
  - intros i j b b' idx Hb Hb' R R'. destruct (NB i b Hb) as (s & S & -> & L). destruct (NB j b' Hb') as (s' & S' & -> & L').
    destruct (Nat.eq_dec i j) as [EQ|NEQ]; [exact EQ|]. exfalso.
    apply (tile_box_disjoint t (order_index fortran t i) (order_index fortran t j) m s s' idx); try assumption; try congruence.
    + now apply order_index_inside.
    + now apply order_index_inside.
    + intros EQ. apply NEQ. now apply (order_index_inj fortran t).
    + apply G. now apply nth_error_In in S.
    + apply G. now apply nth_error_In in S'.
Qed.
(* the tiles are filled in order *)
Theorem tile_order : forall fortran t shapes d i b m boxes, shapes <> [] -> Forall (fun s => length s = d) shapes -> length t = d -> t <> [] -> length shapes <= prod t ->
  max_shape shapes = Ok m -> tile_indices fortran t shapes = Ok (map2 Nat.mul m t, boxes) -> nth_error boxes i = Some b ->
  exists ti, inside t ti /\ offsets b = map2 Nat.mul ti m /\ (if fortran then point t ti else rank t ti) = i.
Proof.
  intros fortran t shapes d i b m boxes NE F LT NT LP M T N. destruct (tile_indices_core fortran t shapes d NE F LT NT LP) as (m' & M' & LM & G & E).
  assert (m' = m) by congruence. subst m'. rewrite E in T.
  assert (EB : boxes = map2 (fun r s => tile_box (order_index fortran t r) m s) (seq 0 (length shapes)) shapes) by congruence. subst boxes. clear T E.
  rewrite nth_error_map2 in N. destruct (nth_error shapes i) as [s|] eqn:S; [|destruct (nth_error (seq 0 (length shapes)) i); discriminate N].
  assert (L : i < length shapes) by (apply nth_error_Some; congruence).
  rewrite (nth_error_nth' _ 0) in N by (rewrite seq_length; exact L). rewrite seq_nth in N by exact L. cbn [plus] in N.
  assert (EB : b = tile_box (order_index fortran t i) m s) by congruence. subst b.
  pose proof (order_index_inside fortran t i ltac:(lia)) as OI. exists (order_index fortran t i). split; [exact OI|]. split.
  - rewrite Forall_forall in G. specialize (G s (nth_error_In _ _ S)). clear -OI G LT LM.
    assert (LO : length (order_index fortran t i) = length m) by (rewrite (inside_length _ _ OI); congruence).
    revert LO. generalize (order_index fortran t i) as o. clear OI LT LM. induction G; intros [|x' o] LO; cbn [length] in LO; try lia; [reflexivity|].
    unfold tile_box. cbn [combine map2 offsets map fst snd]. f_equal. apply IHG. lia.
  - unfold order_index. destruct fortran.
    + rewrite <- rank_rev; [|rewrite rev_length; rewrite (inside_length (rev t) (unrank (rev t) i)); [apply rev_length|apply unrank_inside; rewrite prod_rev; lia]].
      rewrite rev_involutive. apply rank_unrank. rewrite prod_rev. lia.
    + apply rank_unrank. lia.
Qed.
Theorem tile_error : forall fortran t shapes, shapes <> [] -> prod t < length shapes -> tile_indices fortran t shapes = Err ValueError.
Proof.
  intros fortran t shapes NE L. unfold tile_indices. destruct (max_shape shapes) as [m|e] eqn:M; cbn [bind].
  - destruct (np_mul m t) as [ly|e] eqn:N; cbn [bind].
    + assert (G : forall n z, z <= prod t < z + n -> mapM (unravel_index fortran t) (seq z n) = Err ValueError).
      { induction n as [|n IH]; intros z Z; [lia|]. cbn [seq mapM]. unfold unravel_index at 1. destruct t as [|t0 t']; [reflexivity|].
        destruct (Nat.ltb_spec z (prod (t0 :: t'))); [|reflexivity]. cbn [bind]. rewrite IH by lia. reflexivity. }
      rewrite G by lia. reflexivity.
    + unfold np_mul in N. destruct (length m =? length t); [discriminate N|]. destruct m as [|? [|? ?]], t as [|? [|? ?]]; inversion N; reflexivity.
  - unfold max_shape in M. destruct shapes as [|s0 rest]; [congruence|]. destruct (forallb _ rest); inversion M; reflexivity.
Qed.
