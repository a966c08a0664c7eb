From Verif Require Import TilearrayModel TilearraySpec.
From Coq Require Import Lia.
Local Open Scope list_scope.
Local Open Scope nat_scope.

Lemma writes_other {A} : forall (l : list (Z * A)) m x, ~ In x (map fst l) -> fold_left write l m x = m x.
Proof.
  induction l as [|[o v] l IH]; intros m x N; [reflexivity|]. cbn [fold_left map fst In] in *. rewrite IH by tauto. unfold write. cbn [fst snd]. destruct (Z.eqb_spec x o); [subst; tauto|reflexivity].
Qed.
Lemma writes_in {A} : forall (l : list (Z * A)) m x v, In (x, v) l -> (forall v', In (x, v') l -> v' = v) -> fold_left write l m x = v.
Proof.
  induction l as [|[o w] l IH]; intros m x v I U; [destruct I|]. cbn [fold_left].
  destruct (in_dec Z.eq_dec x (map fst l)) as [J|J].
  - apply in_map_iff in J as ([x' v'] & E & J). cbn in E. subst x'. assert (v' = v) as -> by (apply U; now right). apply IH; [exact J|]. intros v'' Q. apply U. now right.
  - rewrite writes_other by exact J. destruct I as [I|I].
    + assert (o = x) as -> by congruence. assert (w = v) as -> by congruence. unfold write. cbn. now rewrite Z.eqb_refl.
    + exfalso. apply J. apply in_map_iff. exists (x, v). auto.
Qed.
Lemma blocks_in {A} n c reps st (src : nat -> nat -> A) x v : In (x, v) (blocks n c reps st src) <-> exists r i j, r < reps /\ i < n /\ j < c /\ x = place (fst st) (snd st) (r * n + i) j /\ v = src i j.
Proof.
  unfold blocks, place. rewrite in_flat_map. split.
  - intros (r & R & H). apply in_flat_map in H as (i & I & H). apply in_map_iff in H as (j & E & J). apply in_seq in R, I, J. exists r, i, j. assert (x = fst (x, v)) as Ex by reflexivity. assert (v = snd (x, v)) as Ev by reflexivity. rewrite <- E in Ex, Ev. cbn [fst snd] in Ex, Ev. repeat split; try lia. exact Ev.
  - intros (r & i & j & R & I & J & -> & ->). exists r. split; [apply in_seq; lia|]. apply in_flat_map. exists i. split; [apply in_seq; lia|]. apply in_map_iff. exists j. split; [f_equal; lia|apply in_seq; lia].
Qed.
Lemma diagonal_in {A} n c reps st (src : nat -> nat -> A) x v : In (x, v) (diagonal n c reps st src) <-> exists b i j, b < reps /\ i < n /\ j < c /\ x = place (fst st) (snd st) (b * n + i) (b * c + j) /\ v = src i j.
Proof.
  unfold diagonal, place. rewrite in_flat_map. split.
  - intros (r & R & H). apply in_flat_map in H as (i & I & H). apply in_map_iff in H as (j & E & J). apply in_seq in R, I, J. exists r, i, j. assert (x = fst (x, v)) as Ex by reflexivity. assert (v = snd (x, v)) as Ev by reflexivity. rewrite <- E in Ex, Ev. cbn [fst snd] in Ex, Ev. repeat split; try lia. exact Ev.
  - intros (r & i & j & R & I & J & -> & ->). exists r. split; [apply in_seq; lia|]. apply in_flat_map. exists i. split; [apply in_seq; lia|]. apply in_map_iff. exists j. split; [f_equal; lia|apply in_seq; lia].
Qed.
Lemma blocks_written {A} n c reps st (src : nat -> nat -> A) m : distinct_places (n * reps) c (fst st) (snd st) ->
  (forall i j, i < n * reps -> j < c -> fold_left write (blocks n c reps st src) m (place (fst st) (snd st) i j) = src (i mod n) j) /\
  (forall x, (forall i j, i < n * reps -> j < c -> x <> place (fst st) (snd st) i j) -> fold_left write (blocks n c reps st src) m x = m x).
Proof.
  intros D. split.
  - intros i j I J. assert (n <> 0) as N by (intros ->; cbn in I; lia). pose proof (Nat.div_mod i n N) as E. pose proof (Nat.mod_upper_bound i n N) as B. assert (i / n < reps) as Q by (apply Nat.div_lt_upper_bound; lia).
    apply writes_in.
    + apply blocks_in. exists (i / n), (i mod n), j. repeat split; try assumption. f_equal. lia.
    + intros v' H. apply blocks_in in H as (r & i' & j' & R & I' & J' & E' & ->). assert (r * n + i' < n * reps) as Q2 by nia. destruct (D i j (r * n + i') j' I J Q2 J' E') as [-> ->]. f_equal. rewrite Nat.add_comm, Nat.mod_add by exact N. symmetry. now apply Nat.mod_small.
  - intros x H. apply writes_other. intros K. apply in_map_iff in K as ([x' v] & E & K). cbn in E. subst x'. apply blocks_in in K as (r & i' & j' & R & I' & J' & E' & _). apply (H (r * n + i') j'); [nia|exact J'|exact E'].
Qed.
Theorem rows {A} n c reps s0 s1 (source : nat -> nat -> A) m : distinct_places (n * reps) c s0 s1 ->
  exists m', tile [n; c] source [n * reps; c] (s0, s1) reps 0 m = Ok m' /\
  (forall i j, i < n * reps -> j < c -> m' (place s0 s1 i j) = source (i mod n) j) /\
  (forall x, (forall i j, i < n * reps -> j < c -> x <> place s0 s1 i j) -> m' x = m x).
Proof.
  intros D. eexists. split; [|exact (blocks_written n c reps (s0, s1) source m D)]. unfold tile, same, dim. cbn [List.length Nat.ltb Nat.leb Nat.eqb nth_error bind]. rewrite Nat.eqb_refl. cbn [bind]. rewrite Nat.mul_1_r, Nat.eqb_refl. reflexivity.
Qed.
Theorem columns {A} n c reps s0 s1 (source : nat -> nat -> A) m : distinct_places n (c * reps) s0 s1 ->
  exists m', tile [n; c] source [n; c * reps] (s0, s1) reps 1 m = Ok m' /\
  (forall i j, i < n -> j < c * reps -> m' (place s0 s1 i j) = source i (j mod c)) /\
  (forall x, (forall i j, i < n -> j < c * reps -> x <> place s0 s1 i j) -> m' x = m x).
Proof.
  intros D. assert (forall a b, place s1 s0 a b = place s0 s1 b a) as P by (intros; unfold place; lia).
  assert (distinct_places (c * reps) n s1 s0) as D' by (intros i j i' j' I J I' J' E; rewrite !P in E; destruct (D j i j' i' J I J' I' E); auto).
  destruct (blocks_written c n reps (s1, s0) (fun i j => source j i) m D') as [W1 W2]. eexists. split; [|split].
  - unfold tile, same, dim. cbn [List.length Nat.ltb Nat.leb Nat.eqb rev app nth_error bind]. rewrite Nat.eqb_refl. cbn [bind]. rewrite Nat.mul_1_r, Nat.eqb_refl. reflexivity.
  - intros i j I J. cbn [fst snd] in *. rewrite <- P. now apply W1.
  - intros x H. apply W2. intros i j I J. cbn [fst snd]. rewrite P. now apply H.
Qed.
Theorem diagonals {A} n c reps s0 s1 (source : nat -> nat -> A) m : distinct_places (n * reps) (c * reps) s0 s1 ->
  exists m', tile [n; c] source [n * reps; c * reps] (s0, s1) reps 2 m = Ok m' /\
  (forall i j, i < n * reps -> j < c * reps -> m' (place s0 s1 i j) = if i / n =? j / c then source (i mod n) (j mod c) else m (place s0 s1 i j)) /\
  (forall x, (forall i j, i < n * reps -> j < c * reps -> x <> place s0 s1 i j) -> m' x = m x).
Proof.
  intros D. eexists. split; [unfold tile, same, dim; cbn [List.length Nat.ltb Nat.leb Nat.eqb nth_error bind]; rewrite Nat.eqb_refl; cbn [bind]; rewrite Nat.eqb_refl; reflexivity|]. split.
  - intros i j I J. assert (n <> 0) as N by (intros ->; cbn in I; lia). assert (c <> 0) as C by (intros ->; cbn in J; lia).
    pose proof (Nat.div_mod i n N) as E. pose proof (Nat.mod_upper_bound i n N) as B. assert (i / n < reps) as Q by (apply Nat.div_lt_upper_bound; lia). pose proof (Nat.div_mod j c C) as E2. pose proof (Nat.mod_upper_bound j c C) as B2.
    assert (forall b i' j' v', b < reps -> i' < n -> j' < c -> place s0 s1 i j = place s0 s1 (b * n + i') (b * c + j') -> v' = source i' j' -> i / n = b /\ j / c = b /\ i mod n = i' /\ j mod c = j') as U.
    { intros b i' j' v' R I' J' EQ _. assert (b * n + i' < n * reps) as Q1 by nia. assert (b * c + j' < c * reps) as Q2 by nia. destruct (D i j _ _ I J Q1 Q2 EQ) as [-> ->].
      rewrite !(Nat.add_comm (b * _)), !Nat.div_add, !Nat.mod_add, !Nat.div_small, !Nat.mod_small by assumption. auto. }
    destruct (i / n =? j / c) eqn:G.
    + apply Nat.eqb_eq in G. apply writes_in.
      * apply diagonal_in. exists (i / n), (i mod n), (j mod c). repeat split; try assumption. cbn [fst snd]. f_equal; [lia|]. rewrite G. lia.
      * intros v' H. apply diagonal_in in H as (b & i' & j' & R & I' & J' & EQ & ->). destruct (U b i' j' _ R I' J' EQ eq_refl) as (_ & _ & -> & ->). reflexivity.
    + apply Nat.eqb_neq in G. apply writes_other. intros K. apply in_map_iff in K as ([x' v] & EX & K). cbn in EX. subst x'. apply diagonal_in in K as (b & i' & j' & R & I' & J' & EQ & EV). destruct (U b i' j' v R I' J' EQ EV) as (X & Y & _). congruence.
  - intros x H. apply writes_other. intros K. apply in_map_iff in K as ([x' v] & EX & K). cbn in EX. subst x'. apply diagonal_in in K as (b & i' & j' & R & I' & J' & EQ & _). apply (H (b * n + i') (b * c + j')); [nia|nia|exact EQ].
Qed.
Theorem wrong_rank {A} sshape (source : nat -> nat -> A) dshape strides reps dirs m : 2 < List.length sshape \/ 2 < List.length dshape -> tile sshape source dshape strides reps dirs m = Err ValueError.
Proof.
  intros H. unfold tile. destruct (2 <? List.length sshape) eqn:E; [reflexivity|]. apply Nat.ltb_ge in E. destruct H as [H|H]; [lia|]. apply Nat.ltb_lt in H. now rewrite H.
Qed.
Theorem wrong_shape {A} n c (source : nat -> nat -> A) N C strides reps m :
  (N <> n * reps \/ C <> c -> tile [n; c] source [N; C] strides reps 0 m = Err ValueError) /\
  (N <> n \/ C <> c * reps -> tile [n; c] source [N; C] strides reps 1 m = Err ValueError) /\
  (N <> n * reps \/ C <> c * reps -> tile [n; c] source [N; C] strides reps 2 m = Err ValueError).
Proof.
  unfold tile, same, dim. cbn [List.length Nat.ltb Nat.leb Nat.eqb rev app nth_error bind]. rewrite !Nat.mul_1_r.
  split; [|split]; intros H.
  - destruct (n * reps =? N) eqn:E; [|reflexivity]. apply Nat.eqb_eq in E. cbn [bind]. destruct (c =? C) eqn:E2; [|reflexivity]. apply Nat.eqb_eq in E2. lia.
  - destruct (c * reps =? C) eqn:E; [|reflexivity]. apply Nat.eqb_eq in E. cbn [bind]. destruct (n =? N) eqn:E2; [|reflexivity]. apply Nat.eqb_eq in E2. lia.
  - destruct (n * reps =? N) eqn:E; [|reflexivity]. apply Nat.eqb_eq in E. cbn [bind]. destruct (c * reps =? C) eqn:E2; [|reflexivity]. apply Nat.eqb_eq in E2. lia.
Qed.
Theorem one_dimension {A} n (source : nat -> nat -> A) dshape strides reps dirs m : exists e, tile [n] source dshape strides reps dirs m = Err e.
Proof.
  unfold tile, same, dim. assert (2 <? List.length [n] = false) as -> by reflexivity. destruct (2 <? List.length dshape); [eauto|].
  destruct (dirs =? 2); [|destruct (dirs =? 0)]; cbn [rev app nth_error bind].
  - destruct dshape as [|N dshape]; cbn [bind]; [eauto|]. destruct (n * reps =? N); cbn [bind]; eauto.
  - destruct dshape as [|N dshape]; cbn [bind]; [eauto|]. destruct (n * reps =? N); cbn [bind]; eauto.
  - destruct (rev dshape) as [|N ds]; cbn [bind]; [eauto|]. destruct (n * reps =? N); cbn [bind]; eauto.
Qed.
Lemma contiguous n c : distinct_places n c (Z.of_nat c) 1.
Proof.
  intros i j i' j' I J I' J' E. unfold place in E. assert (i = i') as ->; [|split; [reflexivity|lia]]. destruct (Nat.lt_trichotomy i i') as [L|[L|L]]; [|exact L|]; exfalso; nia.
Qed.
