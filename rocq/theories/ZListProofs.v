(* Facts about lists addressed by integer positions. *)
From Verif Require Import Base BaseProofs ListToolsProofs ZList.
Lemma point_none {A} (l : list A) z : point l z = None <-> (z < 0 \/ plen l <= z).
Proof.
  unfold point, plen. destruct (Z.ltb_spec z 0); [intuition lia|].
  rewrite nth_error_None. lia.
Qed.
Lemma point_some {A} (l : list A) z : 0 <= z < plen l -> exists a, point l z = Some a.
Proof.
  intro H. destruct (point l z) eqn:E; [eauto|]. apply point_none in E. lia.
Qed.
Lemma point_app {A} (l l' : list A) z : 0 <= z ->
  point (l ++ l') z = if z <? plen l then point l z else point l' (z - plen l).
Proof.
  intro H. unfold point, plen. destruct (Z.ltb_spec z 0); [lia|].
  destruct (Z.ltb_spec z (Z.of_nat (length l))).
  - apply nth_error_app1. lia.
  - destruct (Z.ltb_spec (z - Z.of_nat (length l)) 0); [lia|].
    rewrite nth_error_app2 by lia. f_equal. lia.
Qed.
Lemma plen_app {A} (l l' : list A) : plen (l ++ l') = plen l + plen l'.
Proof. unfold plen. rewrite app_length. lia. Qed.
Lemma plen_map {A B} (f : A -> B) l : plen (map f l) = plen l.
Proof. unfold plen. now rewrite map_length. Qed.
Lemma point_map {A B} (f : A -> B) l z : point (map f l) z = option_map f (point l z).
Proof. unfold point. destruct (z <? 0); [reflexivity|]. apply nth_error_map. Qed.
Lemma plen_nonneg {A} (l : list A) : 0 <= plen l.
Proof. unfold plen. lia. Qed.
Lemma point_firstn {A} (l : list A) n z : point (firstn n l) z = if z <? Z.of_nat n then point l z else None.
Proof.
  unfold point. destruct (Z.ltb_spec z 0); [now destruct (z <? Z.of_nat n)|].
  destruct (Z.ltb_spec z (Z.of_nat n)).
  - rewrite <- (firstn_skipn n l) at 2. destruct (Nat.lt_ge_cases (Z.to_nat z) (length (firstn n l))).
    + now rewrite nth_error_app1.
    + rewrite nth_error_app2 by lia. rewrite firstn_length in H1.
      rewrite skipn_all2 by lia. rewrite (proj2 (nth_error_None _ _)) by (rewrite firstn_length; lia).
      now destruct (Z.to_nat z - length (firstn n l))%nat.
  - apply nth_error_None. rewrite firstn_length. lia.
Qed.
Lemma nth_error_skipn' {A} (l : list A) n k : nth_error (skipn n l) k = nth_error l (n + k).
Proof. revert l. induction n as [|n IH]; intros [|a l]; cbn; try reflexivity; [now destruct k|apply IH]. Qed.
Lemma point_skipn {A} (l : list A) n z : 0 <= z -> point (skipn n l) z = point l (Z.of_nat n + z).
Proof.
  intro H. unfold point. destruct (Z.ltb_spec z 0); [lia|]. destruct (Z.ltb_spec (Z.of_nat n + z) 0); [lia|].
  rewrite nth_error_skipn'. f_equal. lia.
Qed.
Lemma point_ext {A} (l l' : list A) : plen l = plen l' -> (forall z, 0 <= z < plen l -> point l z = point l' z) -> l = l'.
Proof.
  revert l'. induction l as [|a l IH]; intros [|b l'] Hl H; unfold plen in *; cbn [length] in *; try lia; [reflexivity|].
  f_equal.
  - specialize (H 0 ltac:(lia)). unfold point in H. cbn in H. congruence.
  - apply IH; [lia|]. intros z Hz. specialize (H (z + 1) ltac:(lia)). unfold point in *.
    destruct (Z.ltb_spec (z + 1) 0); [lia|]. destruct (Z.ltb_spec z 0); [lia|].
    replace (Z.to_nat (z + 1)) with (S (Z.to_nat z)) in H by lia. exact H.
Qed.
Lemma slice_bound_in n d v : 0 <= v <= n -> slice_bound n d (Some v) = v.
Proof. intro H. unfold slice_bound. destruct (Z.ltb_spec v 0); lia. Qed.
Lemma py_slice_len {A} (l : list A) a b : 0 <= a <= b -> b <= plen l -> plen (py_slice l (Some a) (Some b)) = b - a.
Proof.
  intros Ha Hb. unfold plen in *. unfold py_slice. rewrite !slice_bound_in by lia.
  rewrite firstn_length, skipn_length. lia.
Qed.
Lemma py_slice_nth {A} (l : list A) a b z : 0 <= a <= b -> b <= plen l -> 0 <= z < b - a ->
  point (py_slice l (Some a) (Some b)) z = point l (a + z).
Proof.
  intros Ha Hb Hz. unfold plen in *. unfold py_slice. rewrite !slice_bound_in by lia.
  rewrite point_firstn. destruct (Z.ltb_spec z (Z.of_nat (Z.to_nat (b - a)))); [|lia].
  rewrite point_skipn by lia. f_equal. lia.
Qed.
Lemma py_get_point {A} (l : list A) z a : 0 <= z -> point l z = Some a -> py_get l z = Ok a.
Proof.
  intros Hz H. unfold point in H. destruct (Z.ltb_spec z 0); [lia|]. apply py_get_ok. left. now split.
Qed.
Lemma py_get_point_neg {A} (l : list A) z a : z < 0 -> point l (z + plen l) = Some a -> py_get l z = Ok a.
Proof.
  intros Hz H. unfold point in H. destruct (Z.ltb_spec (z + plen l) 0); [discriminate|]. unfold plen in *.
  apply py_get_ok. right. split; [lia|]. split; [lia|exact H].
Qed.
