(* Facts about the numpy model. *)
From Verif Require Export NumpyModel BaseProofs.
Local Open Scope nat_scope.

Section InsertRemove.
Context {A : Type}.
Implicit Types (l : list A) (x d : A).

Lemma length_insert_at i x l : length (insert_at i x l) = S (length l).
Proof.
  unfold insert_at. rewrite app_length. cbn [length]. rewrite firstn_length, skipn_length. lia.
Qed.

Lemma length_remove_at i l : i < length l -> length (remove_at i l) = length l - 1.
Proof. intros H. unfold remove_at. rewrite app_length, firstn_length, skipn_length. lia. Qed.

Lemma nth_skipn_d i k l d : nth k (skipn i l) d = nth (i + k) l d.
Proof.
  revert l. induction i as [|i IH]; intros l; cbn; [reflexivity|].
  destruct l; [destruct k; reflexivity|]. apply IH.
Qed.

Lemma nth_firstn_d i k l d : k < i -> nth k (firstn i l) d = nth k l d.
Proof.
  revert i k. induction l as [|a l IH]; intros [|i] [|k] H; cbn; try lia; try reflexivity.
  apply IH. lia.
Qed.

Lemma nth_insert_at i x l k d : i <= length l ->
  nth k (insert_at i x l) d = if k <? i then nth k l d else if k =? i then x else nth (k - 1) l d.
Proof.
  intros H. unfold insert_at.
  destruct (Nat.ltb_spec k i) as [Hk|Hk].
  - rewrite app_nth1 by (rewrite firstn_length; lia). now apply nth_firstn_d.
  - rewrite app_nth2 by (rewrite firstn_length; lia).
    rewrite firstn_length, Nat.min_l by lia.
    destruct (Nat.eqb_spec k i) as [->|Hne].
    + now rewrite Nat.sub_diag.
    + destruct (k - i) as [|m] eqn:E; [lia|]. cbn [nth].
      rewrite nth_skipn_d. f_equal. lia.
Qed.

Lemma nth_remove_at i l k d :
  nth k (remove_at i l) d = if k <? i then nth k l d else nth (S k) l d.
Proof.
  unfold remove_at. destruct (Nat.ltb_spec k i) as [Hk|Hk].
  - destruct (Nat.lt_ge_cases k (length l)) as [Hl|Hl].
    + rewrite app_nth1 by (rewrite firstn_length; lia). now apply nth_firstn_d.
    + rewrite !nth_overflow; [reflexivity|lia|].
      rewrite app_length, firstn_length, skipn_length. lia.
  - destruct (Nat.lt_ge_cases i (length l)) as [Hl|Hl].
    + rewrite app_nth2 by (rewrite firstn_length; lia).
      rewrite firstn_length, Nat.min_l by lia. rewrite nth_skipn_d. f_equal. lia.
    + rewrite !nth_overflow; [reflexivity|lia|].
      rewrite app_length, firstn_length, skipn_length. lia.
Qed.

Lemma list_ext_nth d l l' : length l = length l' ->
  (forall k, k < length l -> nth k l d = nth k l' d) -> l = l'.
Proof. intros. now apply (nth_ext l l' d d). Qed.

Lemma remove_insert_at i x l : i <= length l -> remove_at i (insert_at i x l) = l.
Proof.
  intros H. apply (list_ext_nth x).
  - rewrite length_remove_at; rewrite length_insert_at; lia.
  - intros k Hk. rewrite nth_remove_at, !nth_insert_at by lia.
    destruct (Nat.ltb_spec k i); [reflexivity|].
    destruct (Nat.ltb_spec (S k) i); [lia|].
    destruct (Nat.eqb_spec (S k) i); [lia|]. f_equal. lia.
Qed.

Lemma insert_remove_at i d l : i < length l -> insert_at i (nth i l d) (remove_at i l) = l.
Proof.
  intros H. apply (list_ext_nth d).
  - rewrite length_insert_at, length_remove_at by lia. lia.
  - intros k Hk. rewrite nth_insert_at by (rewrite length_remove_at; lia).
    rewrite !nth_remove_at.
    destruct (Nat.ltb_spec k i); [reflexivity|].
    destruct (Nat.eqb_spec k i) as [->|]; [reflexivity|].
    destruct (Nat.ltb_spec (k - 1) i); [lia|]. f_equal. lia.
Qed.

Lemma nth_insert_same i x l d : i <= length l -> nth i (insert_at i x l) d = x.
Proof. intros H. rewrite nth_insert_at by lia. rewrite Nat.ltb_irrefl, Nat.eqb_refl. reflexivity. Qed.

Lemma In_insert_at i x y l : i <= length l -> In y (insert_at i x l) <-> y = x \/ In y l.
Proof.
  intros H. unfold insert_at. rewrite in_app_iff. cbn [In].
  rewrite <- (firstn_skipn i l) at 3. rewrite in_app_iff. intuition auto.
Qed.
End InsertRemove.

Lemma map_insert_at {A B} (f : A -> B) i x l : map f (insert_at i x l) = insert_at i (f x) (map f l).
Proof. unfold insert_at. now rewrite map_app; cbn [map]; rewrite firstn_map, skipn_map. Qed.

Lemma map_remove_at {A B} (f : A -> B) i l : map f (remove_at i l) = remove_at i (map f l).
Proof. unfold remove_at. now rewrite map_app; cbn [map]; rewrite firstn_map, skipn_map. Qed.

Lemma nth_error_remove_insert {A} i (x : A) l : nth_error l i = Some x -> l = insert_at i x (remove_at i l).
Proof.
  intros H. assert (i < length l) by (apply nth_error_Some; congruence).
  rewrite <- (insert_remove_at i x l) at 1 by lia. f_equal.
  now apply nth_error_nth.
Qed.

Lemma inside_nth s o : inside s o <-> length s = length o /\ forall k, k < length s -> nth k o 0 < nth k s 0.
Proof.
  unfold inside. split.
  - induction 1 as [|n k s o H _ [IHl IHn]]; cbn; [split; [reflexivity|lia]|].
    split; [lia|]. intros [|j] Hj; [assumption|]. apply IHn. lia.
  - revert o. induction s as [|n s IH]; intros [|k o] [Hl Hn]; try discriminate; constructor.
    + apply (Hn 0). cbn. lia.
    + apply IH. split; [cbn in Hl; lia|]. intros j Hj. apply (Hn (S j)). cbn. lia.
Qed.

Lemma inside_length s o : inside s o -> length o = length s.
Proof. intros H. symmetry. now apply inside_nth. Qed.

Lemma inside_remove i s o : i < length s -> inside s o -> inside (remove_at i s) (remove_at i o).
Proof.
  rewrite !inside_nth. intros Hi [Hl Hn]. rewrite !length_remove_at by lia. split; [lia|].
  intros k Hk. rewrite !nth_remove_at. destruct (Nat.ltb_spec k i); apply Hn; lia.
Qed.

Lemma inside_insert i n k s o : i <= length s -> k < n -> inside s o ->
  inside (insert_at i n s) (insert_at i k o).
Proof.
  rewrite !inside_nth. intros Hi Hk [Hl Hn]. rewrite !length_insert_at. split; [lia|].
  intros j Hj. rewrite !nth_insert_at by lia.
  destruct (Nat.ltb_spec j i); [apply Hn; lia|].
  destruct (Nat.eqb_spec j i); [assumption|]. apply Hn. lia.
Qed.

Lemma inside_nth_lt s o k : inside s o -> k < length s -> nth k o 0 < nth k s 0.
Proof. intros H. apply inside_nth in H. apply H. Qed.

(* ---- equality of arrays ---- *)
Lemma arr_eq_refl {V} (a : arr V) : arr_eq a a.
Proof. split; auto. Qed.
Lemma arr_eq_sym {V} (a b : arr V) : arr_eq a b -> arr_eq b a.
Proof. intros [H1 H2]. split; [auto|]. intros o Ho. symmetry. apply H2. now rewrite H1. Qed.
Lemma arr_eq_trans {V} (a b c : arr V) : arr_eq a b -> arr_eq b c -> arr_eq a c.
Proof.
  intros [H1 H2] [H3 H4]. split; [congruence|]. intros o Ho.
  rewrite H2 by assumption. apply H4. now rewrite <- H1.
Qed.

(* ---- moving one axis ---- *)
Definition mv {V} (q p : nat) (a : arr V) : arr V :=
  {| shp := insert_at p (nth q (shp a) 0) (remove_at q (shp a));
     elt := fun o => elt a (insert_at q (nth p o 0) (remove_at p o)) |}.

Lemma mv_ext {V} q p (a b : arr V) : q < length (shp a) -> p < length (shp a) ->
  arr_eq a b -> arr_eq (mv q p a) (mv q p b).
Proof.
  intros Hq Hp [H1 H2]. split; [unfold mv; cbn; now rewrite H1|].
  cbn. intros o Ho. apply H2.
  assert (length o = length (shp a)) as Hl.
  { rewrite (inside_length _ _ Ho), length_insert_at, length_remove_at by lia. lia. }
  rewrite <- (insert_remove_at q 0 (shp a)) by lia.
  apply inside_insert.
  - rewrite length_remove_at by lia. lia.
  - assert (nth p o 0 < nth p (insert_at p (nth q (shp a) 0) (remove_at q (shp a))) 0) as Hlt.
    { apply inside_nth_lt; [assumption|]. rewrite length_insert_at, length_remove_at by lia. lia. }
    rewrite nth_insert_same in Hlt; [exact Hlt|]. rewrite length_remove_at by lia. lia.
  - replace (remove_at q (shp a)) with
      (remove_at p (insert_at p (nth q (shp a) 0) (remove_at q (shp a)))) at 1.
    + apply inside_remove; [|assumption]. rewrite length_insert_at, length_remove_at by lia. lia.
    + apply remove_insert_at. rewrite length_remove_at by lia. lia.
Qed.

Lemma mv_same {V} p (a : arr V) : p < length (shp a) -> arr_eq (mv p p a) a.
Proof.
  intros Hp. split; cbn.
  - now rewrite insert_remove_at by lia.
  - intros o Ho. rewrite insert_remove_at; [reflexivity|].
    rewrite (inside_length _ _ Ho), length_insert_at, length_remove_at by lia. lia.
Qed.

(* the axes list that moves axis q to p *)
Definition mv_axes (n q p : nat) : list nat := insert_at p q (remove_at q (seq 0 n)).

Lemma nth_mv_axes n q p k : q < n -> p < n ->
  nth k (mv_axes n q p) 0 =
    if k =? p then q else
    let k' := if k <? p then k else k - 1 in
    nth (if k' <? q then k' else S k') (seq 0 n) 0.
Proof.
  intros Hq Hp. unfold mv_axes.
  rewrite nth_insert_at by (rewrite length_remove_at; rewrite seq_length; lia).
  rewrite !nth_remove_at.
  destruct (Nat.eqb_spec k p) as [->|Hk]; [now rewrite Nat.ltb_irrefl|]. cbn zeta.
  destruct (Nat.ltb_spec k p).
  - destruct (Nat.ltb_spec k q); reflexivity.
  - destruct (Nat.ltb_spec (k - 1) q); reflexivity.
Qed.

Lemma length_mv_axes n q p : q < n -> p < n -> length (mv_axes n q p) = n.
Proof.
  intros. unfold mv_axes. rewrite length_insert_at, length_remove_at; rewrite seq_length; lia.
Qed.

Lemma index_nat_first l : forall k j, j < length l -> nth j l 0 = k ->
  (forall i, i < j -> nth i l 0 <> k) -> index_nat k l = j.
Proof.
  induction l as [|x l IH]; intros k j Hj Hn Hi; cbn in *; [lia|].
  destruct (Nat.eqb_spec x k) as [->|Hne].
  - destruct j; [reflexivity|]. exfalso. apply (Hi 0); [lia|reflexivity].
  - destruct j; [congruence|]. f_equal. apply IH; [lia|assumption|].
    intros i Hij. apply (Hi (S i)). lia.
Qed.

Lemma index_mv_axes n q p k : q < n -> p < n -> k < n ->
  index_nat k (mv_axes n q p) =
    if k =? q then p else
    let k' := if k <? q then k else k - 1 in if k' <? p then k' else S k'.
Proof.
  intros Hq Hp Hk.
  apply index_nat_first.
  - rewrite length_mv_axes by lia. cbn zeta.
    destruct (Nat.eqb_spec k q); [lia|]. destruct (Nat.ltb_spec k q);
    [destruct (Nat.ltb_spec k p)|destruct (Nat.ltb_spec (k-1) p)]; lia.
  - rewrite nth_mv_axes by lia. cbn zeta.
    destruct (Nat.eqb_spec k q) as [->|]; [now rewrite Nat.eqb_refl|].
    repeat match goal with
    | |- context [?a <? ?b] => destruct (Nat.ltb_spec a b)
    | |- context [?a =? ?b] => destruct (Nat.eqb_spec a b)
    end; try lia; rewrite seq_nth by lia; lia.
  - intros i Hi. rewrite nth_mv_axes by lia. cbn zeta in *.
    revert Hi.
    repeat match goal with
    | |- context [?a <? ?b] => destruct (Nat.ltb_spec a b)
    | |- context [?a =? ?b] => destruct (Nat.eqb_spec a b)
    end; intros Hi; try lia; try (rewrite seq_nth by lia; lia).
Qed.

Lemma transpose_mv {V} (a : arr V) q p : q < length (shp a) -> p < length (shp a) ->
  arr_eq (np_transpose a (mv_axes (length (shp a)) q p)) (mv q p a).
Proof.
  intros Hq Hp. set (n := length (shp a)) in *.
  assert (map (fun k => nth k (shp a) 0) (mv_axes n q p)
          = insert_at p (nth q (shp a) 0) (remove_at q (shp a))) as Hs.
  { unfold mv_axes. rewrite map_insert_at, map_remove_at. f_equal. f_equal.
    apply (list_ext_nth 0).
    - rewrite map_length, seq_length. reflexivity.
    - intros k Hk. rewrite map_length, seq_length in Hk.
      rewrite (nth_indep _ 0 (nth 0 (shp a) 0)) by (rewrite map_length, seq_length; lia).
      rewrite (map_nth (fun k => nth k (shp a) 0)). now rewrite seq_nth by lia. }
  split; [exact Hs|].
  cbn. intros o Ho. rewrite Hs in Ho.
  assert (length o = n) as Hl.
  { rewrite (inside_length _ _ Ho), length_insert_at, length_remove_at by lia. lia. }
  f_equal. rewrite length_mv_axes by lia.
  apply (list_ext_nth 0).
  - rewrite map_length, seq_length, length_insert_at, length_remove_at by lia. lia.
  - intros k Hk. rewrite map_length, seq_length in Hk.
    rewrite (nth_indep _ 0 (nth (index_nat 0 (mv_axes n q p)) o 0)) by (rewrite map_length, seq_length; lia).
    rewrite (map_nth (fun k => nth (index_nat k (mv_axes n q p)) o 0)).
    rewrite seq_nth by lia. cbn [plus].
    rewrite index_mv_axes by lia. cbn zeta.
    rewrite nth_insert_at by (rewrite length_remove_at; lia). rewrite !nth_remove_at.
    repeat match goal with
    | |- context [?a <? ?b] => destruct (Nat.ltb_spec a b)
    | |- context [?a =? ?b] => destruct (Nat.eqb_spec a b)
    end; try lia; subst; f_equal; lia.
Qed.

(* ---- slices ---- *)
Lemma slice_all_positions n : slice_positions n slice_all = Ok (seq 0 n).
Proof.
  unfold slice_positions. cbn. f_equal.
  replace ((Z.of_nat n - 0 + 1 - 1) / 1)%Z with (Z.of_nat n) by (rewrite Z.div_1_r; lia).
  unfold range_list. cbn.
  replace ((Z.of_nat n - 0 + 1 - 1) / 1)%Z with (Z.of_nat n) by (rewrite Z.div_1_r; lia).
  rewrite Nat2Z.id, map_map. rewrite <- (map_id (seq 0 n)) at 2.
  apply map_ext. intros k. lia.
Qed.

Lemma slice_positions_bound n s ps : slice_positions n s = Ok ps -> Forall (fun p => p < n) ps.
Proof.
  unfold slice_positions. set (k := match step s with Some k => k | None => 1%Z end).
  destruct (Z.eqb_spec k 0); [discriminate|]. intros [= <-].
  rewrite Forall_map. unfold range_list. rewrite Forall_map, Forall_forall.
  intros i Hi. apply in_seq in Hi.
  set (a := slice_start (Z.of_nat n) (k <? 0)%Z (start s)) in *.
  set (b := slice_stop (Z.of_nat n) (k <? 0)%Z (stop s)) in *.
  destruct (Z.ltb_spec 0 k).
  - assert (0 <= a)%Z as Ha.
    { subst a. unfold slice_start. replace (k <? 0)%Z with false by (symmetry; apply Z.ltb_ge; lia).
      destruct (start s) as [v|]; [destruct (v <? 0)%Z|]; lia. }
    assert (b <= Z.of_nat n)%Z as Hb.
    { subst b. unfold slice_stop. replace (k <? 0)%Z with false by (symmetry; apply Z.ltb_ge; lia).
      destruct (stop s) as [v|]; [destruct (v <? 0)%Z|]; lia. }
    assert (Z.of_nat i < (b - a + k - 1) / k)%Z as Hlt by lia.
    assert (k * ((b - a + k - 1) / k) <= b - a + k - 1)%Z by (apply Z.mul_div_le; lia).
    nia.
  - assert (a <= Z.of_nat n - 1)%Z as Ha.
    { subst a. unfold slice_start. replace (k <? 0)%Z with true by (symmetry; apply Z.ltb_lt; lia).
      destruct (start s) as [v|]; [destruct (v <? 0)%Z|]; lia. }
    assert (-1 <= b)%Z as Hb.
    { subst b. unfold slice_stop. replace (k <? 0)%Z with true by (symmetry; apply Z.ltb_lt; lia).
      destruct (stop s) as [v|]; [destruct (v <? 0)%Z|]; lia. }
    assert (Z.of_nat i < (a - b + - k - 1) / (- k))%Z as Hlt by lia.
    assert ((- k) * ((a - b + - k - 1) / (- k)) <= a - b + - k - 1)%Z by (apply Z.mul_div_le; lia).
    nia.
Qed.
