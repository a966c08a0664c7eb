(* How the coordinates of the stack relate to those of the single arrays. *)
From Verif Require Import GetitemProofs OpsProofs SetitemModel SetitemSpec SetitemProofs.
Local Open Scope nat_scope.

Lemma out_elt_source {V} (f : list nat -> V) rs o : out_elt f rs o = f (source rs o).
Proof. unfold out_elt, source, out_elt. destruct (has_adv rs); reflexivity. Qed.
Lemma source_length rs o : no_new (map rkind rs) -> length (source rs o) = length rs.
Proof. intros H. unfold source, out_elt. destruct (has_adv rs); now apply fill_length. Qed.
Lemma source_inside idx s rs so o : resolve_all s idx = Ok rs -> out_shape rs = Ok so -> inside so o -> inside s (source rs o).
Proof.
  intros Hr Hso Ho. unfold source, out_elt, out_shape in *.
  destruct (has_adv rs) eqn:Ea.
  - apply bind_Ok in Hso. destruct Hso as (L & HL & E). injection E as <-.
    destruct (broadcast_lens _ _ HL) as [HL'|HL']; [now apply adv_lens_nonempty in HL'|].
    pose proof (adv_pos_le _ Ea) as Hp. eapply fill_inside; eauto.
    + intros _. apply (inside_nth_lt _ _ (adv_pos rs)) in Ho; [|rewrite length_insert_at; lia].
      now rewrite nth_insert_same in Ho by lia.
    + apply (inside_remove (adv_pos rs)) in Ho; [|rewrite length_insert_at; lia].
      now rewrite remove_insert_at in Ho by lia.
  - injection Hso as <-.
    apply (fill_inside _ _ _ Hr 0); [rewrite (no_adv_lens rs Ea); constructor| |assumption].
    now rewrite (no_adv_lens rs Ea).
Qed.

Section Coordinates.
Context (n : nat) (S' : list nat) (ax : nat).
Hypothesis Hax : ax <= length S'.
Context (rs' : list rent).
Hypothesis Hnn : no_new (map rkind rs').
Hypothesis Hlen : length rs' = length S'.
Let tag (a : nat) : arr (nat * list nat) := {| shp := S'; elt := fun c => (a, c) |}.
Let all : arr (nat * list nat) := full_arr tag (n, []) (seq 0 n) S' ax.

Lemma all_at c p c' : p < n -> length c = S (length S') -> elt all c = (p, c') -> c = insert_at ax p c'.
Proof.
  intros Hp Hl E. unfold all, full_arr in E. cbn in E.
  destruct (nth_error (seq 0 n) (nth ax c 0)) as [a|] eqn:Ea.
  - injection E as -> <-. rewrite nth_error_seq' in Ea. destruct (Nat.ltb_spec (nth ax c 0) n); [|discriminate].
    injection Ea as <-. symmetry. apply insert_remove_at. lia.
  - injection E as E _. lia.
Qed.
Lemma insert_no_new r : rkind r <> KN -> no_new (map rkind (insert_at ax r rs')).
Proof.
  intros Hr Hi. rewrite map_insert_at in Hi. apply In_insert_at in Hi; [|rewrite map_length; lia].
  destruct Hi as [Hi|Hi]; [congruence|now apply Hnn].
Qed.
Lemma pick_seq_n ps : Forall (fun p => p < n) ps -> pick (seq 0 n) ps = ps.
Proof.
  induction 1 as [|p ps Hp H IH]; [reflexivity|]. unfold pick in *. cbn [flat_map]. rewrite nth_error_seq'.
  destruct (Nat.ltb_spec p n); [|lia]. cbn [plus app]. now rewrite IH.
Qed.
Lemma bounds_seq ps : Forall (fun p => p < n) ps -> Forall (fun p => p < length (seq 0 n)) ps.
Proof. now rewrite seq_length. Qed.
Lemma source_insert_length r o : rkind r <> KN -> length (source (insert_at ax r rs') o) = S (length S').
Proof. intros Hr. rewrite source_length by now apply insert_no_new. rewrite length_insert_at. lia. Qed.

Lemma src_slice ps so so' k o : Forall (fun p => p < n) ps -> ps <> [] ->
  out_shape (insert_at ax (RSl ps) rs') = Ok so -> out_shape rs' = Ok so' ->
  (kadv (map rkind rs') = true -> ex_q ax (map rkind rs') = kpos (insert_at ax KS (map rkind rs'))) ->
  let axo := ex_axo ax (map rkind rs') in
  so = insert_at axo (length ps) so' /\ axo <= length so' /\
  (k < length ps -> inside so' o -> source (insert_at ax (RSl ps) rs') (insert_at axo k o) = insert_at ax (nth k ps 0) (source rs' o)).
Proof.
  intros Hps Hne Hso Hso' Hq axo.
  destruct (core_slice tag (n, []) (seq 0 n) S' ax Hax rs' Hnn Hlen ps (bounds_seq _ Hps) Hne so so' Hso Hso') as (st & Hst & Heq & Hlt).
  fold (ex_r ax (map rkind rs')) in Hst, Heq, Hlt.
  fold (ex_axo ax (map rkind rs')) in Hst, Heq, Hlt. fold axo in Hst.
  rewrite pick_seq_n in Hst by assumption.
  destruct (np_stack_ok (map (part tag rs' so') ps) axo so') as (st' & Hst' & Hsh & Hel).
  { intros E. apply map_eq_nil in E. congruence. }
  { rewrite Forall_map, Forall_forall. reflexivity. }
  assert (st' = st) as -> by congruence. rewrite map_length in Hsh.
  assert (arr_eq st {| shp := so; elt := out_elt (elt all) (insert_at ax (RSl ps) rs') |}) as Hst2.
  { destruct (kadv (map rkind rs')); [|exact Heq]. specialize (Hq eq_refl). destruct (Hlt eq_refl) as [Hl1 _].
    fold (ex_q ax (map rkind rs')) in Heq, Hl1. rewrite Hq in Heq, Hl1. eapply arr_eq_trans; [|exact Heq]. apply arr_eq_sym, mv_same. exact Hl1. }
  destruct Hst2 as [Esh Eel]. cbn [shp elt] in Esh, Eel. rewrite Hsh in Esh.
  assert (axo <= length so') as Hle.
  { unfold axo, ex_axo, ex_r. pose proof (nkept_firstn_le ax (map rkind rs')) as H1.
    unfold out_shape in Hso'. rewrite has_adv_kind in Hso'. destruct (kadv (map rkind rs')) eqn:Ea.
    - apply bind_Ok in Hso'. destruct Hso' as (L & _ & E). injection E as <-. rewrite length_insert_at, kept_length.
      match goal with |- context [if ?b then _ else _] => destruct b end; lia.
    - injection Hso' as <-. rewrite kept_length. lia. }
  split; [now symmetry|]. split; [exact Hle|]. intros Hk Ho.
  assert (length o = length so') as Hol by now apply inside_length.
  assert (inside so (insert_at axo k o)) as Hin by (rewrite <- Esh; now apply inside_insert).
  rewrite <- Esh in Hin. rewrite <- Hsh in Hin.
  specialize (Eel _ Hin). rewrite out_elt_source in Eel.
  rewrite (Hel _ (part tag rs' so' (nth k ps 0))) in Eel.
  2:{ rewrite nth_insert_same by lia. apply map_nth_error. now apply nth_error_nth'. }
  rewrite remove_insert_at in Eel by lia. cbn [part elt] in Eel. rewrite out_elt_source in Eel. cbn [tag elt] in Eel.
  apply all_at; [|apply source_insert_length; discriminate|now symmetry].
  rewrite Forall_forall in Hps. apply Hps, nth_In. lia.
Qed.

Lemma src_int p0 so so' : p0 < n ->
  out_shape (insert_at ax (RInt p0) rs') = Ok so -> out_shape rs' = Ok so' ->
  (kadv (map rkind rs') = true -> kpos (map rkind rs') = kpos (insert_at ax KI (map rkind rs'))) ->
  so = so' /\ forall o, inside so' o -> source (insert_at ax (RInt p0) rs') o = insert_at ax p0 (source rs' o).
Proof.
  intros Hp Hso Hso' Hq.
  assert (nth_error (seq 0 n) p0 = Some p0) as Ha by (rewrite nth_error_seq'; destruct (Nat.ltb_spec p0 n); [reflexivity|lia]).
  destruct (core_int tag (n, []) (seq 0 n) S' ax Hax rs' Hnn Hlen p0 p0 Ha so so' Hso Hso') as (Heq & Hlt).
  assert (arr_eq (part tag rs' so' p0) {| shp := so; elt := out_elt (elt all) (insert_at ax (RInt p0) rs') |}) as H2.
  { destruct (kadv (map rkind rs')); [|exact Heq]. specialize (Hq eq_refl). destruct (Hlt eq_refl) as [Hl1 _].
    rewrite <- Hq in Heq. eapply arr_eq_trans; [|exact Heq]. apply arr_eq_sym, mv_same. exact Hl1. }
  destruct H2 as [Esh Eel]. cbn [shp elt part] in Esh, Eel. split; [now symmetry|].
  intros o Ho. specialize (Eel o Ho). rewrite !out_elt_source in Eel. cbn [tag elt] in Eel.
  apply all_at; [assumption|apply source_insert_length; discriminate|now symmetry].
Qed.

Lemma src_adv ps so k o : Forall (fun p => p < n) ps -> ps <> [] -> Forall (eq (length ps)) (adv_lens rs') ->
  out_shape (insert_at ax (RAdv ps) rs') = Ok so ->
  let p := kpos (insert_at ax KA (map rkind rs')) in
  so = insert_at p (length ps) (kept_lens rs') /\ p <= length (kept_lens rs') /\
  (k < length ps -> inside (kept_lens rs') o ->
   source (insert_at ax (RAdv ps) rs') (insert_at p k o) = insert_at ax (nth k ps 0) (source (map (dec1 k) rs') o)).
Proof.
  intros Hps Hne Hu Hso p.
  destruct (core_adv tag (n, []) (seq 0 n) S' ax Hax rs' Hnn Hlen ps (bounds_seq _ Hps) Hne Hu so Hso) as (st & Hst & Heq).
  fold p in Hst. rewrite pick_seq_n in Hst by assumption.
  set (data := map _ (combine (seq 0 (length ps)) ps)) in Hst.
  destruct (np_stack_ok data p (kept_lens rs')) as (st' & Hst' & Hsh & Hel).
  { intros E. apply map_eq_nil in E. destruct ps; [congruence|discriminate]. }
  { unfold data. rewrite Forall_map, Forall_forall. reflexivity. }
  assert (st' = st) as -> by congruence.
  assert (length data = length ps) as Hdl by (unfold data; rewrite map_length, combine_length, seq_length; lia).
  rewrite Hdl in Hsh. destruct Heq as [Esh Eel]. cbn [shp elt] in Esh, Eel. rewrite Hsh in Esh.
  assert (p <= length (kept_lens rs')) as Hle.
  { rewrite kept_length. unfold p. pose proof (kpos_le (insert_at ax KA (map rkind rs'))) as H. rewrite nkept_insert in H.
    apply H. apply kadv_insert_true. }
  split; [now symmetry|]. split; [exact Hle|]. intros Hk Ho.
  assert (length o = length (kept_lens rs')) as Hol by now apply inside_length.
  assert (inside so (insert_at p k o)) as Hin by (rewrite <- Esh; now apply inside_insert).
  rewrite <- Esh in Hin. rewrite <- Hsh in Hin.
  specialize (Eel _ Hin). rewrite out_elt_source in Eel.
  rewrite (Hel _ (part tag (map (dec1 k) rs') (kept_lens rs') (nth k ps 0))) in Eel.
  2:{ rewrite nth_insert_same by lia. unfold data.
      rewrite nth_error_map.
      assert (nth_error (combine (seq 0 (length ps)) ps) k = Some (k, nth k ps 0)) as ->; [|reflexivity].
      rewrite (nth_error_nth' _ (0, 0)) by (rewrite combine_length, seq_length; lia).
      rewrite combine_nth by apply seq_length. now rewrite seq_nth by assumption. }
  rewrite remove_insert_at in Eel by lia. cbn [part elt] in Eel. rewrite out_elt_source in Eel. cbn [tag elt] in Eel.
  apply all_at; [|apply source_insert_length; discriminate|now symmetry].
  rewrite Forall_forall in Hps. apply Hps, nth_In. lia.
Qed.
End Coordinates.

(* ---- the kept coordinates are determined by the source ---- *)
Definition distinct_slices (rs : list rent) : Prop := forall ps, In (RSl ps) rs -> NoDup ps.
Lemma fill_inj rs : forall rest rest' j j', no_new (map rkind rs) -> distinct_slices rs ->
  inside (kept_lens rs) rest -> inside (kept_lens rs) rest' -> fill rs rest j = fill rs rest' j' -> rest = rest'.
Proof.
  induction rs as [|r rs IH]; intros rest rest' j j' Hn Hd H H' E.
  - inversion H. inversion H'. reflexivity.
  - assert (no_new (map rkind rs)) as Hn' by (intros Hi; apply Hn; now right).
    assert (distinct_slices rs) as Hd' by (intros ps Hi; apply Hd; now right).
    destruct r as [|ps|p|ps]; [exfalso; apply Hn; now left| | |].
    + change (kept_lens (RSl ps :: rs)) with (length ps :: kept_lens rs) in *.
      inversion H as [|? k ? o Hk Ho]; subst. inversion H' as [|? k' ? o' Hk' Ho']; subst. cbn in E. injection E as E1 E2.
      f_equal; [|eauto]. assert (NoDup ps) as Hnd by (apply Hd; now left). rewrite (NoDup_nth _ 0) in Hnd. apply Hnd; assumption.
    + cbn in E. injection E as E. apply (IH rest rest' j j'); assumption.
    + cbn in E. injection E as _ E. apply (IH rest rest' j j'); assumption.
Qed.
Lemma dec_no_new k rs : no_new (map rkind rs) -> no_new (map rkind (map (dec1 k) rs)).
Proof.
  intros H Hi. apply H. rewrite map_map in Hi. apply in_map_iff in Hi. destruct Hi as (r & E & Hr).
  apply in_map_iff. exists r. split; [|assumption]. destruct r; cbn in *; congruence.
Qed.
Lemma dec_fill0 k L l : k < L -> Forall (eq L) (adv_lens l) -> forall rest, fill (map (dec1 k) l) rest 0 = fill l rest k.
Proof.
  intros Hk. unfold adv_lens. induction l as [|r l IH]; intros H rest; [reflexivity|].
  cbn in H. apply Forall_app in H. destruct H as [H1 H2].
  destruct r; cbn; rewrite ?IH by assumption; try reflexivity. f_equal.
  inversion H1 as [|? ? HL _]. subst L. unfold bnth.
  destruct (Nat.eqb_spec (length ps) 1) as [E|]; [|reflexivity]. f_equal. lia.
Qed.
Lemma dec_source_inj k k' rs o o' L : k < L -> k' < L -> Forall (eq L) (adv_lens rs) -> no_new (map rkind rs) -> distinct_slices rs ->
  inside (kept_lens rs) o -> inside (kept_lens rs) o' ->
  source (map (dec1 k) rs) o = source (map (dec1 k') rs) o' -> o = o'.
Proof.
  intros Hk Hk' Hu Hn Hd Ho Ho' E. unfold source, out_elt in E. rewrite !dec_adv in E.
  rewrite (dec_fill0 k L), (dec_fill0 k' L) in E by assumption. eapply fill_inj; eauto.
Qed.
Lemma nodup_map_in {A B} (f : A -> B) l : NoDup l -> (forall x y, In x l -> In y l -> f x = f y -> x = y) -> NoDup (map f l).
Proof.
  induction 1 as [|x l Hx H IH]; intros Hf; cbn; [constructor|]. constructor.
  - intros Hi. apply in_map_iff in Hi. destruct Hi as (y & E & Hy). apply Hx. rewrite (Hf x y); [assumption|now left|now right|now symmetry].
  - apply IH. intros a b Ha Hb. apply Hf; now right.
Qed.
Lemma slice_positions_nodup n s ps : slice_positions n s = Ok ps -> NoDup ps.
Proof.
  unfold slice_positions. set (k := match step s with Some k => k | None => 1%Z end).
  destruct (Z.eqb_spec k 0); [discriminate|]. intros [= <-].
  unfold range_list. rewrite map_map. apply nodup_map_in; [apply seq_NoDup|].
  set (a := slice_start (Z.of_nat n) (k <? 0)%Z (start s)) in *.
  set (b := slice_stop (Z.of_nat n) (k <? 0)%Z (stop s)) in *.
  assert (forall i, In i (seq 0 (Z.to_nat (if 0 <? k then (b - a + k - 1) / k else (a - b + - k - 1) / - k))%Z) -> (0 <= a + Z.of_nat i * k)%Z) as Hp.
  { intros i Hi. apply in_seq in Hi. destruct (Z.ltb_spec 0 k).
    - assert (0 <= a)%Z as Ha.
      { subst a. unfold slice_start. replace (k <? 0)%Z with false by (symmetry; apply Z.ltb_ge; lia).
        destruct (start s) as [v|]; [destruct (v <? 0)%Z|]; lia. }
      nia.
    - assert (-1 <= b)%Z as Hb.
      { subst b. unfold slice_stop. replace (k <? 0)%Z with true by (symmetry; apply Z.ltb_lt; lia).
        destruct (stop s) as [v|]; [destruct (v <? 0)%Z|]; lia. }
      assert (Z.of_nat i < (a - b + - k - 1) / (- k))%Z as Hlt by lia.
      assert ((- k) * ((a - b + - k - 1) / (- k)) <= a - b + - k - 1)%Z by (apply Z.mul_div_le; lia).
      nia. }
  intros x y Hx Hy E. pose proof (Hp x Hx). pose proof (Hp y Hy). apply Z2Nat.inj in E; [|assumption..]. nia.
Qed.
Lemma resolve_distinct idx : forall s rs, resolve_all s idx = Ok rs -> distinct_slices rs.
Proof.
  induction idx as [|i idx IH]; intros s rs H ps Hi.
  - destruct s; [|discriminate]. injection H as <-. destruct Hi.
  - apply resolve_all_cons in H. destruct H as [[_ (rs' & H & ->)]|(_ & n & s' & r & rs' & _ & Hr & H & ->)].
    + destruct Hi as [Hi|Hi]; [discriminate|]. now apply (IH _ _ H).
    + destruct Hi as [->|Hi]; [|now apply (IH _ _ H)].
      destruct i; cbn in Hr; try discriminate; try (apply bind_Ok in Hr; destruct Hr as (x & Hx & E)); try discriminate.
      * injection E as ->. now apply slice_positions_nodup in Hx.
      * destruct (Nat.eqb _ _); discriminate.
Qed.
Lemma resolve_slice_nodup n i ps : resolve n i = Ok (RSl ps) -> NoDup ps.
Proof.
  intros Hr. destruct i; cbn in Hr; try discriminate; try (apply bind_Ok in Hr; destruct Hr as (x & Hx & E)); try discriminate.
  - injection E as ->. now apply slice_positions_nodup in Hx.
  - destruct (Nat.eqb _ _); discriminate.
Qed.

(* ---- where the dimension of the lists goes ---- *)
Lemma drop_while_hd b l : match drop_while b l with [] => True | x :: _ => x = negb b end.
Proof. induction l as [|x l IH]; cbn; [exact I|]. destruct (Bool.eqb_spec x b); [exact IH|]. destruct x, b; congruence || reflexivity. Qed.
Definition convex (l : list bool) : Prop :=
  forall a b c, a <= b <= c -> nth_error l a = Some true -> nth_error l c = Some true -> nth_error l b = Some true.
Lemma convex_contiguous l : convex l -> contiguous l = true.
Proof.
  intros H. unfold contiguous. destruct (drop_while_spec false l) as (n1 & E1 & _).
  set (l1 := drop_while false l) in *. destruct (drop_while_spec true l1) as (n2 & E2 & _).
  pose proof (drop_while_hd false l) as H1. pose proof (drop_while_hd true l1) as H2. fold l1 in H1. set (l2 := drop_while true l1) in *.
  destruct l2 as [|x l2]; [reflexivity|]. cbn in H2. subst x. cbn [forallb negb andb].
  apply forallb_forall. intros [|] Hx; [|reflexivity]. exfalso.
  apply In_nth_error in Hx. destruct Hx as (k & Hk).
  destruct n2 as [|n2].
  { cbn in E2. rewrite E2 in H1. discriminate. }
  assert (nth_error l n1 = Some true) as Ha.
  { rewrite E1, E2. rewrite nth_error_app2 by (rewrite repeat_length; lia). rewrite repeat_length, Nat.sub_diag. reflexivity. }
  assert (nth_error l (n1 + S n2) = Some false) as Hb.
  { rewrite E1, E2. rewrite nth_error_app2 by (rewrite repeat_length; lia). rewrite repeat_length.
    rewrite nth_error_app2 by (rewrite repeat_length; lia). rewrite repeat_length. now replace (n1 + S n2 - n1 - S n2) with 0 by lia. }
  assert (nth_error l (n1 + S n2 + S k) = Some true) as Hc.
  { rewrite E1, E2. rewrite nth_error_app2 by (rewrite repeat_length; lia). rewrite repeat_length.
    rewrite nth_error_app2 by (rewrite repeat_length; lia). rewrite repeat_length. now replace (n1 + S n2 + S k - n1 - S n2) with (S k) by lia. }
  specialize (H n1 (n1 + S n2) (n1 + S n2 + S k) ltac:(lia) Ha Hc). congruence.
Qed.

Lemma remove_front {A} (x : A) a l ax : ax < a -> remove_at ax (repeat x a ++ l) = repeat x (a - 1) ++ l.
Proof.
  intros H. unfold remove_at. rewrite firstn_app, skipn_app, repeat_length, firstn_repeat, skipn_repeat.
  replace (ax - a) with 0 by lia. replace (S ax - a) with 0 by lia. cbn [firstn skipn]. rewrite app_nil_r, app_assoc, <- repeat_app.
  f_equal. f_equal. lia.
Qed.
Lemma remove_back {A} (l m : list A) ax : length l <= ax -> remove_at ax (l ++ m) = l ++ remove_at (ax - length l) m.
Proof.
  intros H. unfold remove_at. rewrite firstn_app, skipn_app.
  rewrite (firstn_all2 l) by lia. rewrite (skipn_all2 l) by lia. cbn [app]. rewrite <- app_assoc.
  replace (S ax - length l) with (S (ax - length l)) by lia. reflexivity.
Qed.
Lemma insert_split b0 fl ax a b c : ax <= length fl -> insert_at ax b0 fl = repeat false a ++ repeat true b ++ repeat false c ->
  if b0 then 0 < b /\ fl = repeat false a ++ repeat true (b - 1) ++ repeat false c
  else ax < a /\ fl = repeat false (a - 1) ++ repeat true b ++ repeat false c \/
       a + b <= ax /\ fl = repeat false a ++ repeat true b ++ repeat false (c - 1).
Proof.
  intros Hax E.
  assert (fl = remove_at ax (repeat false a ++ repeat true b ++ repeat false c)) as Ef by (rewrite <- E; symmetry; now apply remove_insert_at).
  assert (nth ax (repeat false a ++ repeat true b ++ repeat false c) (negb b0) = b0) as En.
  { rewrite <- E. now apply nth_insert_same. }
  assert (ax < a + (b + c)) as Hl.
  { apply (f_equal (@length bool)) in E. rewrite length_insert_at, !app_length, !repeat_length in E. lia. }
  assert (forall k (x d : bool) m, k < m -> nth k (repeat x m) d = x) as Hr.
  { intros k x d m. revert k. induction m; intros [|k] H; cbn; try lia; [reflexivity|]. apply IHm. lia. }
  destruct (Nat.lt_ge_cases ax a) as [La|La].
  { rewrite app_nth1 in En by (rewrite repeat_length; lia). rewrite Hr in En by lia. subst b0. left.
    split; [assumption|]. now rewrite remove_front in Ef. }
  rewrite app_nth2, repeat_length in En by (rewrite repeat_length; lia).
  rewrite remove_back, repeat_length in Ef by (rewrite repeat_length; lia).
  destruct (Nat.lt_ge_cases ax (a + b)) as [Lb|Lb].
  { rewrite app_nth1 in En by (rewrite repeat_length; lia). rewrite Hr in En by lia. subst b0.
    split; [lia|]. rewrite remove_front in Ef by lia. exact Ef. }
  rewrite app_nth2, repeat_length in En by (rewrite repeat_length; lia).
  rewrite remove_back, repeat_length in Ef by (rewrite repeat_length; lia).
  rewrite Hr in En by lia. subst b0. right. split; [assumption|]. rewrite Ef. f_equal. f_equal.
  rewrite <- (app_nil_r (repeat false c)), remove_front by lia. now rewrite app_nil_r.
Qed.
Lemma fpos_repeat a b c : 0 < b -> contiguous (repeat false a ++ repeat true b ++ repeat false c) = true /\ first_true (repeat false a ++ repeat true b ++ repeat false c) = a.
Proof. intros H. split; [apply contiguous_iff; eauto|now apply first_true_repeat]. Qed.
Lemma in_true_repeat a b c : In true (repeat false a ++ repeat true b ++ repeat false c) -> 0 < b.
Proof.
  rewrite !in_app_iff. intros [H|[H|H]]; try (apply repeat_spec in H; discriminate). destruct b; [destruct H|lia].
Qed.
Lemma place_slice ks ax : ax <= length ks -> kadv ks = true ->
  contiguous (map kflag (insert_at ax KS ks)) = true \/ (0 < ax /\ match ks with k :: _ => kflag k = true | [] => False end) ->
  ex_q ax ks = kpos (insert_at ax KS ks).
Proof.
  intros Hax Ha H. pose proof (kadv_In _ Ha) as Hin. unfold ex_q, ex_axo, ex_r. rewrite Ha. cbn zeta.
  rewrite nkept_nfalse, <- firstn_map. unfold kpos. rewrite map_insert_at in *. cbn [kflag] in *.
  assert (ax <= length (map kflag ks)) as Hax' by now rewrite map_length.
  destruct H as [H|[H0 H]].
  - apply contiguous_iff in H. destruct H as (a & b & c & E). destruct (insert_split false _ _ _ _ _ Hax' E) as [[L Ef]|[L Ef]]; rewrite E.
    + rewrite Ef in *. apply in_true_repeat in Hin. destruct (fpos_repeat a b c Hin) as [-> ->]. destruct (fpos_repeat (a - 1) b c Hin) as [-> ->].
      rewrite firstn_app, firstn_repeat, repeat_length. replace (ax - (a - 1)) with 0 by lia. cbn [firstn]. rewrite app_nil_r, nfalse_repeat.
      replace (Init.Nat.min ax (a - 1)) with ax by lia. destruct (Nat.ltb_spec ax a); [|lia]. destruct (Nat.ltb_spec (a - 1) ax); lia.
    + rewrite Ef in *. apply in_true_repeat in Hin. destruct (fpos_repeat a b c Hin) as [-> ->]. destruct (fpos_repeat a b (c - 1) Hin) as [-> ->].
      rewrite firstn_app, firstn_repeat, repeat_length. replace (Init.Nat.min ax a) with a by lia. rewrite nfalse_app, nfalse_repeat.
      match goal with |- context [a + ?x] => destruct (Nat.ltb_spec (a + x) a); [lia|]; destruct (Nat.ltb_spec a (S (a + x))); lia end.
  - destruct ks as [|k ks]; [destruct H|]. cbn [map] in *. rewrite H in *. destruct ax as [|ax]; [lia|]. rewrite insert_cons.
    cbn [first_true]. assert (forall l, (if contiguous (true :: l) then 0 else 0) = 0) as Hz by (intros l; now destruct (contiguous _)).
    rewrite !Hz. reflexivity.
Qed.
Lemma place_int ks ax : ax <= length ks -> kadv ks = true ->
  contiguous (map kflag (insert_at ax KI ks)) = true \/ (0 < ax /\ match ks with k :: _ => kflag k = true | [] => False end) ->
  kpos ks = kpos (insert_at ax KI ks).
Proof.
  intros Hax Ha H. pose proof (kadv_In _ Ha) as Hin. unfold kpos. rewrite map_insert_at in *. cbn [kflag] in *.
  assert (ax <= length (map kflag ks)) as Hax' by now rewrite map_length.
  destruct H as [H|[H0 H]].
  - apply contiguous_iff in H. destruct H as (a & b & c & E). destruct (insert_split true _ _ _ _ _ Hax' E) as [L Ef]. rewrite E, Ef in *.
    apply in_true_repeat in Hin. destruct (fpos_repeat a b c L) as [-> ->]. destruct (fpos_repeat a (b - 1) c Hin) as [-> ->]. reflexivity.
  - destruct ks as [|k ks]; [destruct H|]. cbn [map] in *. rewrite H in *. destruct ax as [|ax]; [lia|]. rewrite insert_cons.
    cbn [first_true]. assert (forall l, (if contiguous (true :: l) then 0 else 0) = 0) as Hz by (intros l; now destruct (contiguous _)).
    rewrite !Hz. reflexivity.
Qed.

Lemma picks_flag i : kind_of i <> KN -> picks i = kflag (kind_of i).
Proof. now destruct i. Qed.
Lemma placed_kinds l ax ia idx : ax <= length idx -> l = insert_at ax ia idx -> existsb is_new l = false -> placed l ax ->
  kadv (map kind_of idx) = true -> selected ia = None ->
  contiguous (map kflag (insert_at ax (kind_of ia) (map kind_of idx))) = true \/
  (0 < ax /\ match map kind_of idx with k :: _ => kflag k = true | [] => False end).
Proof.
  intros Hax -> Hnew H Ha Hs.
  assert (forall k i, nth_error (insert_at ax ia idx) k = Some i -> picks i = kflag (kind_of i)) as Hpf.
  { intros k i Hk. apply picks_flag. destruct i; try discriminate. exfalso.
    assert (existsb is_new (insert_at ax ia idx) = true); [|congruence]. apply existsb_exists. exists New. split; [eapply nth_error_In; eauto|reflexivity]. }
  destruct H as [H|[(i & Hi & Hn)|[H|[H0 (i & Hi & Hp)]]]].
  - exfalso. unfold kadv in Ha. apply existsb_exists in Ha. destruct Ha as (k & Hk & Ek). apply in_map_iff in Hk. destruct Hk as (i & <- & Hi).
    assert (selected i = None) as Hi' by (apply H; apply In_insert_at; auto). destruct i; cbn in *; discriminate.
  - exfalso. rewrite (nth_error_nth' _ ia) in Hi by (rewrite length_insert_at; lia). rewrite nth_insert_same in Hi by assumption. congruence.
  - left. apply convex_contiguous. rewrite <- map_insert_at, map_map. intros a b c Habc Hna Hnc.
    assert (forall k, picks_at (insert_at ax ia idx) k <-> nth_error (map (fun x => kflag (kind_of x)) (insert_at ax ia idx)) k = Some true) as Hiff.
    { intros k. rewrite nth_error_map. unfold picks_at. destruct (nth_error (insert_at ax ia idx) k) as [i|] eqn:E; cbn.
      - rewrite <- (Hpf _ _ E). split; [intros (i' & Ei & Hp); congruence|]. intros [= Hp]. eauto.
      - split; [intros (i' & Ei & _); discriminate|discriminate]. }
    apply Hiff. apply (H a b c Habc); now apply Hiff.
  - right. split; [lia|]. pose proof (Hpf _ _ Hi) as Hpi. destruct ax as [|ax]; [lia|]. destruct idx as [|j idx]; [cbn in Hax; lia|].
    rewrite insert_cons in Hi. cbn in Hi. injection Hi as ->. cbn. congruence.
Qed.
