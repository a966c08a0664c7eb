(* Proofs about the grouping of XANES scans. *)
From Coq Require Import String Permutation.
From Verif Require Import XanesModel XanesSpec TextProofs ScanProofs.
Local Open Scope nat_scope.

Lemma put_len {A} (l : list A) i v : length (put l i v) = length l.
Proof. revert i. induction l as [|x l IH]; intros [|i]; cbn; auto. Qed.
Lemma put_nth {A} (l : list A) i v k d : i < length l -> nth k (put l i v) d = if k =? i then v else nth k l d.
Proof.
  revert i k. induction l as [|x l IH]; intros i k H; [cbn in H; lia|]. destruct i as [|i]; destruct k as [|k]; cbn; try reflexivity.
  apply IH. cbn in H. lia.
Qed.
Lemma puts_len {A} (v : A) ks : forall b, length (fold_left (fun b k => put b k v) ks b) = length b.
Proof. induction ks as [|k ks IH]; intros b; cbn; [reflexivity|]. rewrite IH. apply put_len. Qed.
Lemma puts_nth {A} (v : A) ks k d : forall b, (forall i, In i ks -> i < length b) ->
  nth k (fold_left (fun b k => put b k v) ks b) d = if existsb (Nat.eqb k) ks then v else nth k b d.
Proof.
  induction ks as [|i ks IH]; intros b H; cbn [fold_left existsb]; [reflexivity|]. rewrite IH.
  - rewrite put_nth by (apply H; left; reflexivity). destruct (k =? i); cbn [orb]; [destruct (existsb _ ks); reflexivity | reflexivity].
  - intros j Hj. rewrite put_len. apply H. right. exact Hj.
Qed.
Lemma existsb_seq k a n : existsb (Nat.eqb k) (seq a n) = (a <=? k) && (k <? a + n).
Proof.
  apply eq_true_iff_eq. rewrite existsb_exists, andb_true_iff, Nat.leb_le, Nat.ltb_lt. split.
  - intros [x [Hx E]]. apply Nat.eqb_eq in E as <-. apply in_seq in Hx. exact Hx.
  - intros H. exists k. split; [apply in_seq; exact H | apply Nat.eqb_refl].
Qed.
Lemma filter_all {A} (p : A -> bool) l : (forall x, In x l -> p x = true) -> filter p l = l.
Proof.
  induction l as [|x l IH]; intros H; cbn; [reflexivity|]. rewrite (H x (or_introl eq_refl)). f_equal. apply IH. intros y Hy. apply H. right. exact Hy.
Qed.
Lemma filter_none {A} (p : A -> bool) l : (forall x, In x l -> p x = false) -> filter p l = [].
Proof.
  induction l as [|x l IH]; intros H; cbn; [reflexivity|]. rewrite (H x (or_introl eq_refl)). apply IH. intros y Hy. apply H. right. exact Hy.
Qed.

Section Groups.
Variables (o : gopts) (data : list entry).
Let len := length data.
Let f (k : nat) : entry := nth k data (0%Z, 0%Z).
Definition sumb (i : nat) : bool := Z.ltb 1 (rep_at data i).
Definition first (i : nat) : nat := Z.to_nat (Z.max (Z.of_nat (back data i)) (Z.of_nat i - rep_at data i)).
Lemma back_le i : back data i <= i.
Proof. induction i as [|i IH]; cbn [back]; [lia|]. destruct (Z.eqb _ 1); lia. Qed.
Lemma back_ones i k : back data i <= k < i -> rep_at data k = 1%Z.
Proof.
  induction i as [|i IH]; cbn [back]; [lia|]. destruct (Z.eqb (rep_at data i) 1) eqn:E; [|lia]. intros H.
  destruct (Nat.eq_dec k i) as [-> | N]; [apply Z.eqb_eq; exact E | apply IH; lia].
Qed.
Lemma back_stop i : back data i = 0 \/ exists j, back data i = S j /\ rep_at data j <> 1%Z.
Proof.
  induction i as [|i IH]; cbn [back]; [left; reflexivity|]. destruct (Z.eqb (rep_at data i) 1) eqn:E; [exact IH|].
  right. exists i. split; [reflexivity | apply Z.eqb_neq; exact E].
Qed.
Lemma first_le i : sumb i = true -> first i <= i.
Proof. unfold sumb, first. rewrite Z.ltb_lt. pose proof (back_le i). lia. Qed.
Lemma first_back i : back data i <= first i.
Proof. unfold first. lia. Qed.
Lemma in_block i k : first i <= k < i -> rep_at data k = 1%Z.
Proof. intros H. apply (back_ones i). pose proof (first_back i). lia. Qed.
Lemma ones_not_sum k : rep_at data k = 1%Z -> sumb k = false.
Proof. intros H. unfold sumb. rewrite H. reflexivity. Qed.
Lemma sum_before i j : sumb j = true -> j < i -> j < first i.
Proof.
  intros Hs Hj. destruct (Nat.lt_ge_cases j (first i)) as [H | H]; [exact H|]. rewrite ones_not_sum in Hs; [discriminate|]. apply (in_block i). lia.
Qed.
Definition covered (i k : nat) : bool := existsb (fun j => sumb j && ((first j <=? k) && (k <? j))) (seq 0 i).
Definition flag (i k : nat) : bool :=
  if (k <? i) && sumb k then keepsum o && (negb (sumingroups o) || keepindividual o)
  else if covered i k then keepindividual o else true.
Lemma covered_S i k : covered (S i) k = covered i k || (sumb i && ((first i <=? k) && (k <? i))).
Proof. unfold covered. rewrite seq_S, existsb_app. cbn [existsb plus]. rewrite orb_false_r. reflexivity. Qed.
Lemma covered_not i k : (forall j, j < i -> sumb j = true -> first j <= k < j -> False) -> covered i k = false.
Proof.
  intros H. apply not_true_iff_false. unfold covered. rewrite existsb_exists. intros [j [Hj E]]. apply in_seq in Hj.
  rewrite !andb_true_iff, Nat.leb_le, Nat.ltb_lt in E. apply (H j); tauto || lia.
Qed.
Lemma flag_here i : flag i i = true.
Proof.
  unfold flag. rewrite Nat.ltb_irrefl. cbn [andb]. rewrite covered_not; [reflexivity|]. intros j Hj _ H. lia.
Qed.
Lemma flag_block i k : first i <= k < i -> flag i k = true.
Proof.
  intros H. unfold flag. rewrite (ones_not_sum k) by (apply (in_block i); exact H). rewrite andb_false_r.
  rewrite covered_not; [reflexivity|]. intros j Hj Hs Hk. pose proof (sum_before i j Hs Hj). lia.
Qed.
Lemma flag_S_plain i k : sumb i = false -> flag (S i) k = flag i k.
Proof.
  intros H. unfold flag. rewrite covered_S, H. cbn [andb]. rewrite orb_false_r.
  destruct (Nat.eq_dec k i) as [-> | N]; [rewrite H, !andb_false_r; reflexivity|].
  replace (k <? S i) with (k <? i); [reflexivity|]. apply eq_true_iff_eq. rewrite !Nat.ltb_lt. lia.
Qed.
Lemma flag_S_sum i k : sumb i = true -> k <> i ->
  flag (S i) k = if (first i <=? k) && (k <? i) then keepindividual o else flag i k.
Proof.
  intros H N. destruct ((first i <=? k) && (k <? i)) eqn:E.
  - assert (K : first i <= k < i) by (rewrite andb_true_iff, Nat.leb_le, Nat.ltb_lt in E; exact E).
    unfold flag. rewrite (ones_not_sum k) by (apply (in_block i); exact K). rewrite andb_false_r, covered_S, H, E. cbn [andb]. rewrite orb_true_r. reflexivity.
  - unfold flag. rewrite covered_S, E, andb_false_r, orb_false_r. 
    replace (k <? S i) with (k <? i); [reflexivity|]. apply eq_true_iff_eq. rewrite !Nat.ltb_lt. lia.
Qed.
Lemma flag_S_self i : sumb i = true -> flag (S i) i = keepsum o && (negb (sumingroups o) || keepindividual o).
Proof. intros H. unfold flag. rewrite H. replace (i <? S i) with true by (symmetry; apply Nat.ltb_lt; lia). reflexivity. Qed.
Definition withsum : bool := keepsum o && sumingroups o.
Definition block (i : nat) : list nat := seq (first i) (i - first i) ++ if withsum then [i] else [].
Definition blocks (i : nat) : list (list Z) := if sumb i then nonempty (map (num_at data) (block i)) else [].
Lemma blocks_sum i : sumb i = true -> blocks i = nonempty (map (num_at data) (block i)).
Proof. intros H. unfold blocks. rewrite H. reflexivity. Qed.
Lemma blocks_plain i : sumb i = false -> blocks i = [].
Proof. intros H. unfold blocks. rewrite H. reflexivity. Qed.

Lemma loop_inv i : i <= len -> exists b, fold_left (group_step o data) (seq 0 i) (repeat true len, []) = (b, flat_map blocks (seq 0 i)) /\
  length b = len /\ forall k, k < len -> nth k b false = flag i k.
Proof.
  induction i as [|i IH]; intros Hi.
  - exists (repeat true len). split; [reflexivity|]. split; [apply repeat_length|]. intros k Hk.
    unfold flag. cbn [Nat.ltb Nat.leb andb]. unfold covered. cbn [seq existsb].
    rewrite nth_indep with (d' := true) by (rewrite repeat_length; exact Hk). apply nth_repeat.
  - destruct IH as [b [E [Lb Hb]]]; [lia|]. rewrite seq_S, fold_left_app, E, flat_map_app. cbn [plus fold_left flat_map]. rewrite app_nil_r.
    unfold group_step. rewrite (Hb i) by lia. rewrite flag_here. cbn [negb].
    destruct (Z.ltb 1 (rep_at data i)) eqn:Hs.
    + fold (sumb i) in Hs. fold (first i). pose proof (first_le i Hs) as Fl.
      assert (R : filter (fun k => nth k b false) (seq (first i) (i - first i)) = seq (first i) (i - first i)).
      { apply filter_all. intros k Hk. apply in_seq in Hk. rewrite Hb by lia. apply flag_block. lia. }
      rewrite R. set (b1 := fold_left _ (seq (first i) (i - first i)) b).
      assert (L1 : length b1 = len) by (unfold b1; rewrite puts_len; exact Lb).
      assert (H1 : forall k, k < len -> nth k b1 false = if (first i <=? k) && (k <? i) then keepindividual o else flag i k).
      { intros k Hk. unfold b1. rewrite puts_nth by (intros j Hj; apply in_seq in Hj; lia). rewrite existsb_seq.
        replace (first i + (i - first i)) with i by lia. rewrite Hb by exact Hk. reflexivity. }
      assert (H2 : forall v k, k < len -> v = flag (S i) i -> nth k (put b1 i v) false = flag (S i) k).
      { intros v k Hk ->. rewrite put_nth by lia. destruct (k =? i) eqn:Ek; [apply Nat.eqb_eq in Ek as ->; reflexivity|].
        apply Nat.eqb_neq in Ek. rewrite H1, (flag_S_sum i k Hs Ek) by exact Hk. reflexivity. }
      assert (H3 : flag (S i) i = true -> forall k, k < len -> nth k b1 false = flag (S i) k).
      { intros Ht k Hk. destruct (Nat.eq_dec k i) as [-> | N]; [|rewrite H1, (flag_S_sum i k Hs N) by exact Hk; reflexivity].
        rewrite H1 by lia. rewrite Ht, flag_here. rewrite Nat.ltb_irrefl, andb_false_r. reflexivity. }
      assert (M : match map (num_at data) (block i) with [] => flat_map blocks (seq 0 i) | _ :: _ => flat_map blocks (seq 0 i) ++ [map (num_at data) (block i)] end =
        flat_map blocks (seq 0 i) ++ blocks i).
      { rewrite (blocks_sum i Hs). destruct (map (num_at data) (block i)); cbn [nonempty]; [rewrite app_nil_r|]; reflexivity. }
      pose proof (flag_S_self i Hs) as Fs. unfold block, withsum in M.
      destruct (keepsum o) eqn:Ks; [destruct (sumingroups o) eqn:Sg|]; cbn [andb negb orb] in M, Fs.
      * exists (put b1 i (keepindividual o)). rewrite map_app in M. cbn [map] in M. split; [f_equal; exact M|]. split; [rewrite put_len; exact L1|].
        intros k Hk. apply H2; [exact Hk | congruence].
      * exists b1. rewrite app_nil_r in M. split; [f_equal; exact M|]. split; [exact L1|]. apply H3. exact Fs.
      * exists (put b1 i false). rewrite app_nil_r in M. split; [f_equal; exact M|]. split; [rewrite put_len; exact L1|].
        intros k Hk. apply H2; [exact Hk | congruence].
    + fold (sumb i) in Hs. exists b. rewrite (blocks_plain i Hs), app_nil_r. split; [reflexivity|]. split; [exact Lb|].
      intros k Hk. rewrite (flag_S_plain i k Hs). apply Hb. exact Hk.
Qed.
Lemma group_form : group o data = flat_map blocks (seq 0 len) ++ map (fun i => [num_at data i]) (filter (flag len) (seq 0 len)).
Proof.
  unfold group. fold len. destruct (loop_inv len (le_n _)) as [b [E [_ Hb]]]. rewrite E. f_equal. f_equal. apply filter_ext_in. intros k Hk.
  apply in_seq in Hk. apply Hb. lia.
Qed.
Lemma data_seq : data = map f (seq 0 len).
Proof.
  unfold f, len. clear. induction data as [|x l IH]; cbn [length seq map]; [reflexivity|]. f_equal. rewrite <- seq_shift, map_map. exact IH.
Qed.
Lemma firstn_seq i : i <= len -> firstn i data = map f (seq 0 i).
Proof.
  intros H. rewrite data_seq at 1. rewrite firstn_map. f_equal. replace len with (i + (len - i)) by lia. rewrite seq_app, firstn_app, seq_length, Nat.sub_diag, firstn_O, app_nil_r.
  rewrite <- (seq_length i 0) at 1. apply firstn_all.
Qed.
Lemma num_f k : num_at data k = fst (f k). Proof. reflexivity. Qed.
Lemma rep_f k : rep_at data k = snd (f k). Proof. reflexivity. Qed.

Lemma before_block i : i < len -> sumb i = true -> repeats_before (map f (seq 0 i)) (map f (seq (first i) (i - first i))) (f i).
Proof.
  intros Hi Hs. pose proof (first_le i Hs) as Fl. exists (map f (seq 0 (first i))). split; [|split; [|split]].
  - rewrite <- map_app. f_equal. rewrite <- seq_app. f_equal. lia.
  - apply Forall_forall. intros e He. apply in_map_iff in He as [k [<- Hk]]. apply in_seq in Hk. rewrite <- rep_f. apply (in_block i). lia.
  - rewrite map_length, seq_length, <- rep_f. unfold first in *. unfold sumb in Hs. apply Z.ltb_lt in Hs. lia.
  - rewrite map_length, seq_length, <- rep_f. unfold sumb in Hs. apply Z.ltb_lt in Hs. pose proof (back_le i) as Bl.
    destruct (Z.le_gt_cases (Z.of_nat (back data i)) (Z.of_nat i - rep_at data i)) as [C | C].
    + left. unfold first. lia.
    + right. assert (F : first i = back data i) by (unfold first; lia). rewrite F. destruct (back_stop i) as [B | [j [B R]]].
      * left. rewrite B. reflexivity.
      * right. rewrite B, seq_S, map_app. exists (map f (seq 0 j)), (f j). split; [reflexivity|]. rewrite <- rep_f. exact R.
Qed.
Lemma grouped_upto i : i <= len -> grouped withsum (map f (seq 0 i)) (flat_map blocks (seq 0 i)).
Proof.
  induction i as [|i IH]; intros Hi; [constructor|]. rewrite seq_S, map_app, flat_map_app. cbn [plus map flat_map]. rewrite app_nil_r.
  destruct (sumb i) eqn:Hs; [rewrite (blocks_sum i Hs) | rewrite (blocks_plain i Hs)].
  - unfold block. rewrite map_app.
    replace (map (num_at data) (seq (first i) (i - first i))) with (map fst (map f (seq (first i) (i - first i)))) by (rewrite map_map; reflexivity).
    replace (map (num_at data) (if withsum then [i] else [])) with (if withsum then [fst (f i)] else []) by (destruct withsum; reflexivity).
    constructor; [|apply IH; lia | apply before_block; [lia | exact Hs]]. unfold sumb in Hs. apply Z.ltb_lt in Hs. exact Hs.
  - rewrite app_nil_r. constructor; [|apply IH; lia]. unfold sumb in Hs. apply Z.ltb_ge in Hs. exact Hs.
Qed.
Theorem group_groups : exists gs ss, group o data = gs ++ map (fun x => [x]) ss /\ grouped (keepsum o && sumingroups o) data gs /\ ss = map (num_at data) (filter (flag len) (seq 0 len))
  /\ gs = flat_map blocks (seq 0 len).
Proof.
  exists (flat_map blocks (seq 0 len)), (map (num_at data) (filter (flag len) (seq 0 len))). rewrite map_map. split; [apply group_form|].
  split; [|auto]. rewrite data_seq. apply grouped_upto. lia.
Qed.
Lemma kept_entries (p : entry -> bool) : map (num_at data) (filter (fun k => p (f k)) (seq 0 len)) = map fst (filter p data).
Proof.
  rewrite data_seq at 2. clearbody len. induction (seq 0 len) as [|k l IH]; cbn [filter map]; [reflexivity|]. destruct (p (f k)); cbn [map]; rewrite IH; reflexivity.
Qed.
Theorem singles_individual : keepindividual o = true -> map (num_at data) (filter (flag len) (seq 0 len)) = map fst (filter (fun x => keepsum o || Z.leb (snd x) 1) data).
Proof.
  intros K. rewrite <- kept_entries. f_equal. apply filter_ext_in. intros k Hk. apply in_seq in Hk. unfold flag. rewrite K, orb_true_r, andb_true_r.
  replace (k <? len) with true by (symmetry; apply Nat.ltb_lt; lia). cbn [andb]. unfold sumb. rewrite rep_f. rewrite Z.leb_antisym.
  destruct (Z.ltb 1 (snd (f k))); cbn [negb]; [rewrite orb_false_r; reflexivity|]. rewrite orb_true_r. destruct (covered len k); reflexivity.
Qed.
Definition blk (i : nat) : list nat := if sumb i then block i else [].
Lemma blocks_concat l : concat (flat_map blocks l) = map (num_at data) (flat_map blk l).
Proof.
  induction l as [|i l IH]; cbn [flat_map]; [reflexivity|]. rewrite concat_app, map_app, IH. f_equal. unfold blocks, blk. destruct (sumb i); [|reflexivity].
  destruct (map (num_at data) (block i)); cbn; [reflexivity | rewrite app_nil_r; reflexivity].
Qed.
Definition wanted (k : nat) : bool := keepsum o || negb (sumb k).
Lemma perm_upto i : keepindividual o = false -> i <= len -> Permutation (flat_map blk (seq 0 i) ++ filter (flag i) (seq 0 i)) (filter wanted (seq 0 i)).
Proof.
  intros K. induction i as [|i IH]; intros Hi; [reflexivity|]. assert (Q := IH ltac:(lia)). clear IH.
  rewrite seq_S, flat_map_app, !filter_app. cbn [plus flat_map filter]. rewrite app_nil_r. unfold blk at 2. unfold wanted at 2. destruct (sumb i) eqn:Hs.
  - pose proof (first_le i Hs) as Fl. rewrite (flag_S_self i Hs), K, orb_false_r.
    assert (Sp : seq 0 i = seq 0 (first i) ++ seq (first i) (i - first i)) by (rewrite <- seq_app; f_equal; lia).
    assert (X1 : filter (flag (S i)) (seq 0 i) = filter (flag i) (seq 0 (first i))).
    { rewrite Sp, filter_app. rewrite (filter_none (flag (S i)) (seq (first i) (i - first i))), app_nil_r.
      - apply filter_ext_in. intros k Hk. apply in_seq in Hk. rewrite (flag_S_sum i k Hs) by lia.
        replace (first i <=? k) with false by (symmetry; apply Nat.leb_gt; lia). reflexivity.
      - intros k Hk. apply in_seq in Hk. rewrite (flag_S_sum i k Hs) by lia.
        replace (first i <=? k) with true by (symmetry; apply Nat.leb_le; lia). replace (k <? i) with true by (symmetry; apply Nat.ltb_lt; lia). exact K. }
    assert (X2 : filter (flag i) (seq 0 i) = filter (flag i) (seq 0 (first i)) ++ seq (first i) (i - first i)).
    { rewrite Sp at 1. rewrite filter_app. f_equal. apply filter_all. intros k Hk. apply in_seq in Hk. apply flag_block. lia. }
    rewrite X1. rewrite X2 in Q. unfold block, withsum.
    set (A := flat_map blk (seq 0 i)) in *. set (X := filter (flag i) (seq 0 (first i))) in *. set (R := seq (first i) (i - first i)) in *.
    set (W := filter wanted (seq 0 i)) in *. clearbody A X R W.
    assert (P1 : Permutation ((A ++ R) ++ X) W).
    { rewrite <- Q, <- app_assoc. apply Permutation_app_head. apply Permutation_app_comm. }
    destruct (keepsum o); cbn [andb negb orb]; [destruct (sumingroups o); cbn [negb]|]; rewrite ?app_nil_r.
    + rewrite <- P1. rewrite !app_assoc. rewrite <- (app_assoc (A ++ R)). rewrite <- (app_assoc (A ++ R) X). apply Permutation_app_head. apply Permutation_app_comm.
    + rewrite <- P1. rewrite !app_assoc. reflexivity.
    + exact P1.
  - rewrite (flag_S_plain i i Hs), flag_here. cbn [negb]. rewrite orb_true_r. cbn [app]. rewrite app_nil_r.
    replace (filter (flag (S i)) (seq 0 i)) with (filter (flag i) (seq 0 i)) by (apply filter_ext; intros k; symmetry; apply flag_S_plain; exact Hs).
    rewrite app_assoc. apply Permutation_app_tail. exact Q.
Qed.
Lemma concat_single {A B} (g : A -> B) l : concat (map (fun x => [g x]) l) = map g l.
Proof. induction l as [|x l IH]; cbn; [reflexivity | f_equal; exact IH]. Qed.
Theorem group_perm : keepindividual o = false -> Permutation (concat (group o data)) (map fst (filter (fun x => keepsum o || Z.leb (snd x) 1) data)).
Proof.
  intros K. rewrite group_form, concat_app, blocks_concat, concat_single, <- map_app, <- kept_entries.
  apply Permutation_map. rewrite (perm_upto len K (le_n _)). erewrite filter_ext_in; [reflexivity|]. intros k _. unfold wanted, sumb. rewrite rep_f, Z.leb_antisym. reflexivity.
Qed.
End Groups.

Theorem grouping o data : exists gs ss, group o data = gs ++ map (fun x => [x]) ss /\ grouped (keepsum o && sumingroups o) data gs /\
  (keepindividual o = true -> ss = map fst (filter (fun x => keepsum o || Z.leb (snd x) 1) data)) /\
  (keepindividual o = false -> Permutation (concat gs ++ ss) (map fst (filter (fun x => keepsum o || Z.leb (snd x) 1) data))).
Proof.
  destruct (group_groups o data) as [gs [ss [E [G [Es Eg]]]]]. exists gs, ss. split; [exact E|]. split; [exact G|]. split.
  - intros K. rewrite Es. apply singles_individual. exact K.
  - intros K. rewrite <- (group_perm o data K), E, concat_app. rewrite (concat_single (fun x : Z => x)), map_id. reflexivity.
Qed.
(* the members of the groups *)
Lemma repeats_before_inv l reps x : repeats_before l reps x -> exists pre, l = pre ++ reps.
Proof. intros [pre [E _]]. exists pre. exact E. Qed.
Theorem grouped_fun w data gs gs' : grouped w data gs -> grouped w data gs' -> gs = gs'.
Proof.
  intros H. revert gs'. induction H as [|l gs x Hx H IH|l gs x reps Hx H IH Hr]; intros gs' H'.
  - inversion H' as [E | l' g y Hy G E | l' g y r Hy G Hr E]; [reflexivity | |]; destruct l'; discriminate.
  - inversion H' as [E | l' g y Hy G E | l' g y r Hy G Hr E].
    + destruct l; discriminate.
    + apply app_inj_tail in E as [-> ->]. apply IH. congruence.
    + apply app_inj_tail in E as [-> ->]. lia.
  - inversion H' as [E | l' g y Hy G E | l' g y r Hy G Hr' E].
    + destruct l; discriminate.
    + apply app_inj_tail in E as [-> ->]. lia.
    + apply app_inj_tail in E as [-> ->]. rewrite (IH _ G). 
      assert (K : reps = r).
      { clear - Hr Hr'. destruct Hr as [p [E [F [Hle C]]]]. destruct Hr' as [p' [E' [F' [Hle' C']]]].
        assert (D : forall (p p' r r' : list entry), l = p ++ r -> l = p' ++ r' -> Forall (fun r => snd r = 1%Z) r' -> (Z.of_nat (length r') <= snd x)%Z ->
          (Z.of_nat (length r) = snd x \/ p = [] \/ exists q y, p = q ++ [y] /\ snd y <> 1%Z) -> (length r' <= length r)%nat).
        { intros q q' s s' Es Es' Fs Hl Cs. destruct Cs as [Cs | [-> | [u [y [-> Hy]]]]].
          - lia.
          - apply (f_equal (@length _)) in Es. apply (f_equal (@length _)) in Es'. rewrite !app_length in *. cbn in Es. lia.
          - destruct (Nat.le_gt_cases (length s') (length s)) as [Q | Q]; [exact Q|]. exfalso.
            rewrite Es in Es'. rewrite <- app_assoc in Es'. cbn [app] in Es'.
            assert (Lq : (length q' <= length u)%nat).
            { apply (f_equal (@length _)) in Es'. rewrite !app_length in Es'. cbn [length] in Es'. lia. }
            assert (In y s').
            { assert (N : nth_error (u ++ y :: s) (length u) = Some y) by (rewrite nth_error_app2, Nat.sub_diag by lia; reflexivity).
              rewrite Es', nth_error_app2 in N by exact Lq. eapply nth_error_In; exact N. }
            rewrite Forall_forall in Fs. apply Hy. apply Fs. assumption. }
        assert (Hlen : length reps = length r).
        { apply Nat.le_antisymm; [apply (D p' p r reps) | apply (D p p' reps r)]; assumption. }
        rewrite E in E'. assert (Lp : length p = length p') by (apply (f_equal (@length _)) in E'; rewrite !app_length in E'; lia).
        clear - E' Lp. revert p' E' Lp. induction p as [|a p IH]; intros [|b p'] E' Lp; cbn in *; try discriminate; [exact E'|].
        injection E' as _ E'. apply (IH p'); [exact E' | lia]. }
      rewrite K. reflexivity.
Qed.

(* ---- what is noted ---- *)
Lemma startswith_spec s p : startswith s p = true <-> begins p s.
Proof.
  unfold startswith, begins. destruct (starts p s) as [r|] eqn:E.
  - apply starts_spec in E. split; [intros _; exists r; exact E | reflexivity].
  - split; [discriminate|]. intros [r ->]. assert (X : starts p (p ++ r) = Some r) by (apply starts_spec; reflexivity). congruence.
Qed.
Lemma startswith_false s p : startswith s p = false <-> ~ begins p s.
Proof. rewrite <- startswith_spec. destruct (startswith s p); split; congruence. Qed.
Lemma split_space_none w : ~ In (ch 32) w -> split_space w = [w].
Proof.
  induction w as [|c w IH]; intros N; [reflexivity|]. cbn [split_space]. rewrite ascii_eqb_neq by (intros ->; apply N; left; reflexivity).
  rewrite IH by (intros H; apply N; right; exact H). reflexivity.
Qed.
Lemma split_space_word w r : ~ In (ch 32) w -> split_space (w ++ ch 32 :: r) = w :: split_space r.
Proof.
  induction w as [|c w IH]; intros N; cbn [app split_space]; [rewrite ascii_eqb_refl; reflexivity|].
  rewrite ascii_eqb_neq by (intros ->; apply N; left; reflexivity). rewrite IH by (intros H; apply N; right; exact H). reflexivity.
Qed.
Lemma digits_no_space w : digits w -> ~ In (ch 32) w.
Proof. intros D H. unfold digits in D. rewrite Forall_forall in D. discriminate (D _ H). Qed.
Lemma pyint_digits w n : w <> [] -> digits w -> value w = n -> pyint w = Ok n.
Proof.
  intros N D E. unfold pyint. destruct w as [|c w]; [congruence|]. rewrite value_int_of in E.
  replace (forallb digit (c :: w)) with true; [rewrite E; reflexivity|]. symmetry. apply forallb_forall. apply Forall_forall. exact D.
Qed.
Lemma repeats_sum sum s n : ~ In (ch 32) sum -> sum_of sum s n -> repeats_of s = Ok n.
Proof.
  intros Hs [w [r [E [N [D [V R]]]]]]. unfold repeats_of. rewrite E. rewrite split_space_word by (vm_compute; intuition discriminate).
  rewrite split_space_word by exact Hs. pose proof (digits_no_space w D) as Hw.
  assert (S3 : exists l, split_space (w ++ r) = w :: l).
  { destruct R as [-> | [r' ->]]; [rewrite app_nil_r, split_space_none by exact Hw | rewrite split_space_word by exact Hw]; eexists; reflexivity. }
  destruct S3 as [l ->]. cbn [item_of nth_error bind]. apply pyint_digits; assumption.
Qed.
Lemma sum_begins sum s n : sum_of sum s n -> begins (txt "zapenergy" ++ ch 32 :: sum ++ [ch 32]) (command s).
Proof. intros [w [r [E _]]]. exists (w ++ r). rewrite E, <- !app_assoc. cbn [app]. rewrite <- app_assoc. reflexivity. Qed.
Lemma begins_excl p q s c d p0 : p = p0 ++ c :: skipn (S (length p0)) p -> q = p0 ++ d :: skipn (S (length p0)) q -> c <> d -> begins p s -> begins q s -> False.
Proof.
  intros -> -> N [r ->] [r' E]. rewrite <- !app_assoc in E. apply app_inv_head in E. cbn in E. congruence.
Qed.
Lemma in_range_tests skip nrmin nrmax s : in_range skip nrmin nrmax s <->
  skipped nrmin (fun m => Z.ltb (number s) m) = false /\ skipped nrmax (fun m => Z.ltb m (number s)) = false /\ existsb (Z.eqb (number s)) skip = false.
Proof.
  unfold in_range, skipped. rewrite <- not_true_iff_false with (b := existsb _ _), existsb_exists.
  assert (X : (~ In (number s) skip) <-> ~ (exists x, In x skip /\ Z.eqb (number s) x = true)).
  { split; intros H G; apply H; [destruct G as [x [Hx E]]; apply Z.eqb_eq in E as ->; exact Hx | exists (number s); split; [exact G | apply Z.eqb_refl]]. }
  rewrite X. destruct nrmin as [m|]; destruct nrmax as [q|]; rewrite ?Z.ltb_ge; split; intros [A [B C]]; repeat split; try tauto; try (apply A; reflexivity); try (apply B; reflexivity);
    intros ? Eq; try discriminate; injection Eq as <-; assumption.
Qed.
Theorem infos_listed skip nrmin nrmax scans es : listed (in_range skip nrmin nrmax) scans es ->
  forall ret, infos skip nrmin nrmax scans ret = Ok (ret ++ es).
Proof.
  induction 1 as [|s ss es Ho H IH|s ss e es Hk Hn H IH]; intros ret; cbn [infos].
  - rewrite app_nil_r. reflexivity.
  - rewrite !IH.
    destruct (skipped nrmin _) eqn:A; [reflexivity|]. destruct (skipped nrmax _) eqn:B; [reflexivity|]. destruct (existsb _ skip) eqn:C; [reflexivity|].
    destruct Ho as [Ho | [Ho | [O1 [O2 O3]]]].
    + exfalso. apply Ho. apply in_range_tests. auto.
    + rewrite Ho. cbn [Z.eqb]. destruct (startswith _ _); [reflexivity|]. destruct (startswith _ _); [reflexivity|]. destruct (startswith _ _); reflexivity.
    + apply startswith_false in O1, O2, O3. rewrite O1, O2, O3. reflexivity.
  - apply in_range_tests in Hk as [A [B C]]. rewrite A, B, C. destruct Hn as [Hb Hl | n Hb Hl]; apply Z.eqb_neq in Hl; rewrite Hl.
    + apply startswith_spec in Hb. rewrite Hb, IH, <- app_assoc. reflexivity.
    + pose proof (sum_begins _ _ _ Hb) as Hp.
      assert (N1 : startswith (command s) (txt "zapline mono ") = false).
      { apply startswith_false. intros Hq. exact (begins_excl _ _ _ (ch 101) (ch 108) (txt "zap") eq_refl eq_refl ltac:(discriminate) Hp Hq). }
      rewrite N1. rewrite (proj2 (startswith_spec _ (txt "zapenergy SUM ")) Hp). rewrite (repeats_sum (txt "SUM") s n) by (assumption || (vm_compute; intuition discriminate)).
      cbn [bind]. rewrite IH, <- app_assoc. reflexivity.
Qed.
Theorem info_spec skip nrmin nrmax scans es : listed (in_range skip nrmin nrmax) scans es -> extractxanesinfo skip nrmin nrmax scans = Ok es.
Proof. intros H. apply (infos_listed _ _ _ _ _ H []). Qed.
(* every entry is a scan that was kept *)
Lemma infos_sound skip nrmin nrmax scans : forall ret es, infos skip nrmin nrmax scans ret = Ok es ->
  forall e, In e es -> In e ret \/ exists s, In s scans /\ in_range skip nrmin nrmax s /\ lines s <> 0%Z /\ fst e = number s /\
    (begins (txt "zapline mono ") (command s) /\ snd e = 1%Z \/ begins (txt "zapenergy SUM ") (command s) \/ begins (txt "zapenergy SUM2 ") (command s)).
Proof.
  induction scans as [|s scans IH]; intros ret es; cbn [infos].
  - intros E e He. left. assert (ret = es) as -> by congruence. exact He.
  - assert (Up : forall r, infos skip nrmin nrmax scans r = Ok es -> forall e, In e es -> (In e r -> In e ret \/ 
      (in_range skip nrmin nrmax s /\ lines s <> 0%Z /\ fst e = number s /\
      (begins (txt "zapline mono ") (command s) /\ snd e = 1%Z \/ begins (txt "zapenergy SUM ") (command s) \/ begins (txt "zapenergy SUM2 ") (command s)))) ->
      In e ret \/ exists s0, In s0 (s :: scans) /\ in_range skip nrmin nrmax s0 /\ lines s0 <> 0%Z /\ fst e = number s0 /\
      (begins (txt "zapline mono ") (command s0) /\ snd e = 1%Z \/ begins (txt "zapenergy SUM ") (command s0) \/ begins (txt "zapenergy SUM2 ") (command s0))).
    { intros r E e He Hr. destruct (IH _ _ E e He) as [Q | [s0 [Hs Q]]].
      - destruct (Hr Q) as [Q' | Q']; [left; exact Q' | right; exists s; split; [left; reflexivity | exact Q']].
      - right. exists s0. split; [right; exact Hs | exact Q]. }
    destruct (skipped nrmin _) eqn:A; [intros E e He; apply (Up _ E e He); auto|].
    destruct (skipped nrmax _) eqn:B; [intros E e He; apply (Up _ E e He); auto|].
    destruct (existsb _ skip) eqn:C; [intros E e He; apply (Up _ E e He); auto|].
    assert (Rg : in_range skip nrmin nrmax s) by (apply in_range_tests; auto).
    destruct (startswith (command s) (txt "zapline mono ")) eqn:S1; [|destruct (startswith (command s) (txt "zapenergy SUM ")) eqn:S2; [|destruct (startswith (command s) (txt "zapenergy SUM2 ")) eqn:S3]].
    + destruct (Z.eqb (lines s) 0) eqn:Z0; [intros E e He; apply (Up _ E e He); auto|]. apply Z.eqb_neq in Z0.
      intros E e He. apply (Up _ E e He). intros Hr. apply in_app_iff in Hr as [Hr | [<- | []]]; [left; exact Hr|]. right.
      split; [exact Rg|]. split; [exact Z0|]. split; [reflexivity|]. left. split; [apply startswith_spec; exact S1 | reflexivity].
    + destruct (Z.eqb (lines s) 0) eqn:Z0; [intros E e He; apply (Up _ E e He); auto|]. apply Z.eqb_neq in Z0.
      destruct (repeats_of s) as [n|]; cbn [bind]; [|discriminate].
      intros E e He. apply (Up _ E e He). intros Hr. apply in_app_iff in Hr as [Hr | [<- | []]]; [left; exact Hr|]. right.
      split; [exact Rg|]. split; [exact Z0|]. split; [reflexivity|]. right. left. apply startswith_spec. exact S2.
    + destruct (Z.eqb (lines s) 0) eqn:Z0; [intros E e He; apply (Up _ E e He); auto|]. apply Z.eqb_neq in Z0.
      destruct (repeats_of s) as [n|]; cbn [bind]; [|discriminate]. unfold set_last. destruct ret as [|x ret]; cbn [bind]; [discriminate|].
      intros E e He. apply (Up _ E e He). intros Hr. apply in_app_iff in Hr as [Hr | [<- | []]].
      * left. rewrite (app_removelast_last x) by discriminate. apply in_app_iff. left. exact Hr.
      * right. split; [exact Rg|]. split; [exact Z0|]. split; [reflexivity|]. right. right. apply startswith_spec. exact S3.
    + intros E e He. apply (Up _ E e He). auto.
Qed.
Theorem info_sound skip nrmin nrmax scans es e : extractxanesinfo skip nrmin nrmax scans = Ok es -> In e es ->
  exists s, In s scans /\ in_range skip nrmin nrmax s /\ lines s <> 0%Z /\ fst e = number s /\
    (begins (txt "zapline mono ") (command s) /\ snd e = 1%Z \/ begins (txt "zapenergy SUM ") (command s) \/ begins (txt "zapenergy SUM2 ") (command s)).
Proof. intros E He. destruct (infos_sound _ _ _ _ _ _ E e He) as [[] | H]. exact H. Qed.
Theorem ginfo_spec o skip nrmin nrmax scans es gs : listed (in_range skip nrmin nrmax) scans es -> group o es = gs -> extractxanesginfo o skip nrmin nrmax scans = Ok gs.
Proof. intros H <-. unfold extractxanesginfo. rewrite (info_spec _ _ _ _ _ H). reflexivity. Qed.

Definition mono (n : Z) : fscan := mk_fscan n (txt "zapline mono 7 7.1 100 50") 100.
Definition sums (n : Z) (k : chars) : fscan := mk_fscan n (txt "zapenergy SUM " ++ k ++ txt " 50") 100.
Definition sum2 (n : Z) (k : chars) : fscan := mk_fscan n (txt "zapenergy SUM2 " ++ k ++ txt " 50") 100.
Theorem sum2_first : extractxanesinfo [] None None [sum2 1 (txt "3")] = Err IndexError.
Proof. reflexivity. Qed.
Theorem sum2_drops : extractxanesinfo [] None None [mono 1; sum2 2 (txt "3")] = Ok [(2, 3)%Z].
Proof. reflexivity. Qed.
Theorem few_repeats : exists o scans, extractxanesginfo o [] None None scans = Ok [[1; 2]]%Z /\ scans = [mono 1; mono 2; sums 3 (txt "5")].
Proof. exists (mk_gopts false false false). eexists. split; [|reflexivity]. reflexivity. Qed.
Theorem foreign_repeats : exists o scans, extractxanesginfo o [] None None scans = Ok [[1; 2]; [5]]%Z /\
  scans = [mono 1; mono 2; mk_fscan 3 (txt "ascan samy 0 1 10 1") 11; sums 4 (txt "2"); mono 5].
Proof. exists (mk_gopts false false false). eexists. split; [|reflexivity]. reflexivity. Qed.
