From Coq Require Import String Reals Lra.
From Verif Require Import TextProofs DetOptics DetSpec DetProofs.
Local Open Scope R_scope.

Lemma fold_plus (f : layer -> R) l : forall s, fold_left (fun s a => s + f a) l s = s + fold_right (fun a t => f a + t) 0 l.
Proof. induction l as [|a l IH]; intros s; cbn; [lra|]. rewrite IH. lra. Qed.
Lemma absorbance_sum s d e : filter_absorbance s d e = fold_right (fun a t => layer_absorbance a e + t) 0 (if s then beamfilters false d else detectorfilters true d).
Proof. unfold filter_absorbance. cbv zeta. destruct (if s then _ else _) as [|a l]; [reflexivity|]. rewrite (fold_plus (fun a => layer_absorbance a e)). lra. Qed.
Theorem transmission_product : forall s d e, filter_transmission s d e = fold_right (fun a t => exp (- (mac a e * (thickness a * density a))) * t) 1 (if s then beamfilters false d else detectorfilters true d).
Proof.
  intros s d e. unfold filter_transmission. rewrite absorbance_sum. induction (if s then _ else _) as [|a l IH]; cbn [fold_right]; [rewrite Ropp_0; apply exp_0|]. rewrite <- IH, <- exp_plus. f_equal. unfold layer_absorbance. lra.
Qed.
Definition absorbs (d : det layer) (e : R) : Prop := forall n a, has d n a -> 0 <= mac a e * (thickness a * density a).
Lemma prod_range l e : (forall a, In a l -> 0 <= mac a e * (thickness a * density a)) -> 0 < fold_right (fun a t => exp (- (mac a e * (thickness a * density a))) * t) 1 l <= 1.
Proof.
  induction l as [|a l IH]; intros H; cbn [fold_right]; [lra|]. destruct IH as [I1 I2]; [intros b B; apply H; now right|]. specialize (H a (or_introl eq_refl)). pose proof (exp_pos (- (mac a e * (thickness a * density a)))) as P.
  assert (Q : exp (- (mac a e * (thickness a * density a))) <= 1) by (rewrite <- exp_0; destruct H as [H|H]; [left; apply exp_increasing; lra|right; f_equal; lra]). split; [now apply Rmult_lt_0_compat|]. apply Rle_trans with (1 * 1); [apply Rmult_le_compat; lra|lra].
Qed.
Lemma select_in {A} P (l : list (chars * A)) r : select P l r -> forall a, In a r -> exists n, In (n, a) l.
Proof. induction 1 as [|n a l r p S IH|n a l r p S IH]; intros b B; [destruct B| |destruct (IH b B) as (m & M); exists m; now right]. destruct B as [<-|B]; [exists n; now left|]. destruct (IH b B) as (m & M). exists m. now right. Qed.
Theorem transmission_range : forall s d e, absorbs d e -> 0 < filter_transmission s d e <= 1 /\ 0 <= filter_attenuation s d e < 1.
Proof.
  intros s d e H. unfold filter_attenuation. assert (R : 0 < filter_transmission s d e <= 1); [|lra]. rewrite transmission_product. apply prod_range. intros a I.
  destruct s; [destruct (select_in _ _ _ (proj1 (lists_spec _ d)) a I) as (n & N)|destruct (select_in _ _ _ (atmosphere_left_out _ d) a I) as (n & N)]; eapply H; exact N.
Qed.
Lemma lookup_has (d : det layer) n a : lookup chars_eqb n (attenuators d) = Some a -> has d n a.
Proof. unfold has. induction (attenuators d) as [|[m b] l IH]; [discriminate|]. cbn. destruct (chars_eqb n m) eqn:E; [|now right; apply IH]. intros H. apply chars_eqb_spec in E. left. congruence. Qed.
Theorem detector_range : forall d e, (lookup chars_eqb DETECTOR (attenuators d) = None -> attenuation d e = 1) /\ (forall a, lookup chars_eqb DETECTOR (attenuators d) = Some a -> attenuation d e = 1 - exp (- (mac a e * (thickness a * density a)))) /\ (absorbs d e -> 0 <= attenuation d e <= 1).
Proof.
  intros d e. unfold attenuation, transmission, absorbance. split; [intros ->; lra|]. split; [now intros a ->|]. intros H. destruct (lookup _ _ _) as [a|] eqn:E; [|lra]. apply lookup_has in E. specialize (H _ _ E). unfold layer_absorbance. pose proof (prod_range [a] e) as P. cbn in P. destruct P as [P1 P2]; [intros b [<-|[]]; exact H|]. lra.
Qed.
Theorem efficiency_spec : forall w d es ed i j x y, nth_error es i = Some x -> nth_error ed j = Some y ->
  (exists row, nth_error (efficiency w d es ed) i = Some row /\ length row = length ed /\ nth_error row j = Some (filter_transmission true d x * (filter_transmission false d y * (if w then attenuation d y else 1)))) /\ length (efficiency w d es ed) = length es.
Proof.
  intros w d es ed i j x y X Y. split; [|unfold efficiency; cbv zeta; now rewrite !map_length]. unfold efficiency. cbv zeta. set (row := map _ (combine _ _)).
  assert (R : row = map (fun y => filter_transmission false d y * (if w then attenuation d y else 1)) ed) by (subst row; destruct w; clear; induction ed as [|y l IH]; cbn; congruence).
  exists (map (fun z => filter_transmission true d x * z) row). split; [|split].
  - rewrite nth_error_map. rewrite nth_error_map, X. reflexivity.
  - rewrite map_length, R. now rewrite map_length.
  - rewrite nth_error_map, R, nth_error_map, Y. reflexivity.
Qed.
Lemma three p q c : 0 <= p <= 1 -> 0 <= q <= 1 -> 0 <= c <= 1 -> 0 <= p * (q * c) <= 1.
Proof.
  intros P Q C. assert (0 <= q * c <= 1) by (split; [apply Rmult_le_pos; lra|apply Rle_trans with (1 * 1); [apply Rmult_le_compat; lra|lra]]). split; [apply Rmult_le_pos; lra|apply Rle_trans with (1 * 1); [apply Rmult_le_compat; lra|lra]].
Qed.
Theorem efficiency_range : forall w d es ed row x, (forall e, In e es \/ In e ed -> absorbs d e) -> In row (efficiency w d es ed) -> In x row -> 0 <= x <= 1.
Proof.
  intros w d es ed row x H R X. apply In_nth_error in R as (i & R). apply In_nth_error in X as (j & X).
  assert (LE : (i < length es)%nat) by (rewrite <- (map_length (filter_transmission true d) es); rewrite <- (map_length (fun t => map (fun z => t * z) (map (fun p => fst p * snd p) (combine (map (filter_transmission false d) ed) (if w then map (attenuation d) ed else map (fun _ => 1) ed))))); apply nth_error_Some; unfold efficiency in R; cbv zeta in R; congruence).
  destruct (nth_error es i) as [s|] eqn:S; [|apply nth_error_None in S; lia].
  assert (LR : length row = length ed).
  { unfold efficiency in R. cbv zeta in R. rewrite nth_error_map in R. destruct (nth_error _ i) as [t|]; [|discriminate]. cbn [option_map] in R. assert (row = map (fun x => t * x) (map (fun p => fst p * snd p) (combine (map (filter_transmission false d) ed) (if w then map (attenuation d) ed else map (fun _ => 1) ed)))) by congruence. subst row. rewrite !map_length, combine_length. destruct w; rewrite !map_length; apply Nat.min_id. }
  assert (JL : (j < length ed)%nat) by (rewrite <- LR; apply nth_error_Some; congruence). destruct (nth_error ed j) as [y|] eqn:Y; [|apply nth_error_None in Y; lia].
  destruct (efficiency_spec w d es ed i j s y S Y) as ((row' & E1 & _ & E2) & _). assert (row' = row) by congruence. subst row'. rewrite E2 in X. assert (x = filter_transmission true d s * (filter_transmission false d y * (if w then attenuation d y else 1))) by congruence. subst x.
  apply nth_error_In in S, Y. destruct (transmission_range true d s) as [[A1 A2] _]; [apply H; now left|]. destruct (transmission_range false d y) as [[B1 B2] _]; [apply H; now right|]. destruct (detector_range d y) as (_ & _ & C). specialize (C (H y (or_intror Y))).
  assert (D : 0 <= (if w then attenuation d y else 1) <= 1) by (destruct w; lra). apply three; split; lra.
Qed.
(* the air has no effect *)
Lemma without_air a b o e : filter_transmission false {| own := o; around := Some a |} e = filter_transmission false {| own := o; around := b |} e.
Proof.
  unfold filter_transmission. f_equal. f_equal. unfold filter_absorbance. cbv zeta. replace (detectorfilters true {| own := o; around := Some a |}) with (detectorfilters true {| own := o; around := b |}); [reflexivity|]. unfold detectorfilters, attenuators, refresh. cbn [around own]. f_equal.
  destruct b as [b|]; cbn [own]; rewrite ?(filter_assign_out (fun n => isdetectorfilter n true)) by reflexivity; reflexivity.
Qed.
Theorem air_ignored : forall w o a es ed, efficiency w {| own := o; around := Some a |} es ed = efficiency w {| own := o; around := None |} es ed.
Proof.
  intros w o a es ed. unfold efficiency. cbv zeta.
  assert (T : forall e, filter_transmission true {| own := o; around := Some a |} e = filter_transmission true {| own := o; around := None |} e) by (intros e; unfold filter_transmission; do 2 f_equal; unfold filter_absorbance, beamfilters; cbv zeta; now rewrite !filter_beam_attenuators).
  assert (L : lookup chars_eqb DETECTOR (attenuators {| own := o; around := Some a |}) = lookup chars_eqb DETECTOR (attenuators {| own := o; around := None |})) by (now rewrite !lookup_attenuators).
  assert (U : forall e, attenuation {| own := o; around := Some a |} e = attenuation {| own := o; around := None |} e) by (intros e; unfold attenuation, transmission, absorbance; now rewrite L).
  rewrite (map_ext _ _ T), (map_ext _ _ (without_air a None o)), (map_ext _ _ U). reflexivity.
Qed.
