(* Lemmas on expand and on recorded operations of utils/indexing.py *)
From Verif Require Import BaseProofs NumpyModel NumpyProofs IndexingModel IndexingProofs IndexingSpec GetitemProofs.
From Coq Require Import Permutation.
Local Open Scope nat_scope.

(* ---- permutations of axes ---- *)
Lemma is_axes_spec axes n : is_axes axes n = true <-> Permutation axes (seq 0 n).
Proof.
  unfold is_axes. rewrite andb_true_iff, Nat.eqb_eq, forallb_forall. split.
  - intros [Hl H].
    assert (incl (seq 0 n) axes) as Hi.
    { intros k Hk. apply H in Hk. apply existsb_exists in Hk. destruct Hk as (x & Hx & E). apply Nat.eqb_eq in E. now subst. }
    apply Permutation_sym, NoDup_Permutation_bis; [apply seq_NoDup|rewrite seq_length; lia|assumption].
  - intros H. split; [rewrite (Permutation_length H); apply seq_length|].
    intros k Hk. apply existsb_exists. exists k. split; [|apply Nat.eqb_refl].
    eapply Permutation_in; [apply Permutation_sym, H|assumption].
Qed.

Lemma index_nat_In k l : In k l -> index_nat k l < length l /\ nth (index_nat k l) l 0 = k.
Proof.
  induction l as [|x l IH]; intros H; [destruct H|]. cbn.
  destruct (Nat.eqb_spec x k) as [->|Hne]; [split; [lia|reflexivity]|].
  destruct H as [->|H]; [congruence|]. destruct (IH H). split; [lia|assumption].
Qed.
Lemma index_nat_nth l j : NoDup l -> j < length l -> index_nat (nth j l 0) l = j.
Proof.
  intros Hn Hj. destruct (index_nat_In (nth j l 0) l) as [H1 H2]; [now apply nth_In|].
  eapply NoDup_nth; eauto.
Qed.

Lemma nth_map_lt (f : nat -> nat) l k : k < length l -> nth k (map f l) 0 = f (nth k l 0).
Proof.
  intros H. rewrite (nth_indep _ 0 (f 0)) by now rewrite map_length. apply map_nth.
Qed.
Lemma nth_map_seq (f : nat -> nat) n k : k < n -> nth k (map f (seq 0 n)) 0 = f k.
Proof. intros H. rewrite nth_map_lt by now rewrite seq_length. now rewrite seq_nth. Qed.

Section Perm.
Context (n : nat) (a1 a2 : list nat).
Hypothesis H1 : Permutation a1 (seq 0 n).
Hypothesis H2 : Permutation a2 (seq 0 n).

Lemma perm_len l : Permutation l (seq 0 n) -> length l = n.
Proof. intros H. rewrite (Permutation_length H). apply seq_length. Qed.
Lemma perm_nodup l : Permutation l (seq 0 n) -> NoDup l.
Proof. intros H. eapply Permutation_NoDup; [apply Permutation_sym, H|apply seq_NoDup]. Qed.
Lemma perm_in l k : Permutation l (seq 0 n) -> In k l <-> k < n.
Proof.
  intros H. split; intros Hk.
  - eapply Permutation_in in Hk; [|exact H]. apply in_seq in Hk. lia.
  - eapply Permutation_in; [apply Permutation_sym, H|]. apply in_seq. lia.
Qed.

Definition comp := map (fun k => nth k a1 0) a2.

Lemma comp_perm : Permutation comp (seq 0 n).
Proof.
  unfold comp. pose proof (Permutation_map (fun k => nth k a1 0) H2) as H3.
  eapply Permutation_trans; [exact H3|].
  replace (map (fun k => nth k a1 0) (seq 0 n)) with a1; [exact H1|].
  apply (nth_ext _ _ 0 0); [now rewrite map_length, seq_length, perm_len|].
  intros k Hk. rewrite (perm_len a1 H1) in Hk.
  now rewrite nth_map_seq.
Qed.

Lemma index_comp k : k < n -> index_nat k comp = index_nat (index_nat k a1) a2.
Proof.
  intros Hk.
  destruct (index_nat_In k a1) as [Hi Hn]; [now apply perm_in|]. rewrite (perm_len a1 H1) in Hi.
  destruct (index_nat_In (index_nat k a1) a2) as [Hj Hm]; [now apply perm_in|].
  set (j := index_nat (index_nat k a1) a2) in *.
  assert (nth j comp 0 = k) as E.
  { unfold comp. rewrite nth_map_lt by assumption. now rewrite Hm. }
  rewrite <- E at 1. apply index_nat_nth; [eapply perm_nodup, comp_perm|].
  unfold comp. now rewrite map_length.
Qed.

Lemma transpose_comp {V} (a : arr V) :
  arr_eq (np_transpose (np_transpose a a1) a2) (np_transpose a comp).
Proof.
  split.
  - cbn [np_transpose shp]. unfold comp. rewrite map_map. apply map_ext_in. intros k Hk.
    apply (perm_in a2) in Hk; [|assumption].
    rewrite nth_map_lt by (rewrite perm_len; assumption). reflexivity.
  - intros o _. cbn [np_transpose elt]. f_equal. unfold comp. rewrite map_length, (perm_len a1 H1), (perm_len a2 H2).
    fold comp. apply map_ext_in. intros k Hk. apply in_seq in Hk.
    destruct (index_nat_In k a1) as [Hi Hn]; [apply perm_in; [assumption|lia]|]. rewrite (perm_len a1 H1) in Hi.
    rewrite nth_map_seq by assumption. rewrite index_comp by lia. reflexivity.
Qed.
End Perm.

Lemma move_axis_ok n q p axes : q < n -> p < n -> move_axis n q p = Some axes -> is_axes axes n = true.
Proof.
  intros Hq Hp H. unfold move_axis in H. destruct (Nat.eqb q p); [discriminate|]. injection H as <-.
  rewrite seq_nth by assumption. now apply mv_axes_ok.
Qed.

Lemma comp_mapM n a1 a2 : Permutation a1 (seq 0 n) -> Permutation a2 (seq 0 n) ->
  mapM (fun k => match nth_error a1 k with Some x => Ok x | None => Err IndexError end) a2 = Ok (comp a1 a2).
Proof.
  intros H1 H2. unfold comp.
  assert (forall k, In k a2 -> k < length a1) as H.
  { intros k Hk. rewrite (perm_len n a1 H1). now apply (perm_in n a2 k H2). }
  clear H1 H2. induction a2 as [|k l IH]; [reflexivity|]. cbn.
  rewrite (nth_error_nth' a1 0) by (apply H; now left). cbn. rewrite IH; [reflexivity|].
  intros; apply H; now right.
Qed.

(* ---- operations respect equality of arrays ---- *)
Lemma transpose_ext {V} (a b : arr V) axes : Permutation axes (seq 0 (length (shp a))) -> arr_eq a b ->
  arr_eq (np_transpose a axes) (np_transpose b axes).
Proof.
  intros Hp [Hs He]. split; [cbn; now rewrite Hs|].
  intros o Ho. cbn [np_transpose shp elt] in *. apply He.
  pose proof (inside_length _ _ Ho) as Hl. rewrite map_length in Hl.
  set (n := length (shp a)) in *.
  apply inside_nth. rewrite map_length, seq_length, (perm_len n axes Hp). split; [reflexivity|].
  intros k Hk. fold n in Hk.
  rewrite nth_map_seq by assumption.
  destruct (index_nat_In k axes) as [Hi Hn]; [now apply (perm_in n axes k Hp)|].
  apply (inside_nth_lt _ _ (index_nat k axes)) in Ho; [|now rewrite map_length].
  rewrite nth_map_lt, Hn in Ho by assumption. exact Ho.
Qed.

Lemma np_get_ext {V} (a b c : arr V) idx : arr_eq a b -> np_get a idx = Ok c ->
  exists d, np_get b idx = Ok d /\ arr_eq c d.
Proof.
  intros [Hs He] H. unfold np_get in *. rewrite <- Hs.
  apply bind_Ok in H. destruct H as (rs & Hr & H). apply bind_Ok in H. destruct H as (so & Hso & E). injection E as <-.
  rewrite Hr. cbn. rewrite Hso. cbn. eexists. split; [reflexivity|]. split; [reflexivity|].
  cbn [shp elt]. intros o Ho. eapply out_elt_ext; eauto.
Qed.

Lemma apply_op_ext {V} o (a b c : arr V) : arr_eq a b -> apply_op o a = Ok c ->
  exists d, apply_op o b = Ok d /\ arr_eq c d.
Proof.
  intros H Hc. destruct o as [idx|axes]; cbn [apply_op] in *; [eapply np_get_ext; eauto|].
  pose proof H as [Hs _]. rewrite <- Hs.
  destruct (is_axes axes (length (shp a))) eqn:E; [|discriminate]. injection Hc as <-.
  eexists. split; [reflexivity|]. apply transpose_ext; [now apply is_axes_spec|assumption].
Qed.
Lemma apply_ops_ext {V} ops : forall (a b c : arr V), arr_eq a b -> apply_ops ops a = Ok c ->
  exists d, apply_ops ops b = Ok d /\ arr_eq c d.
Proof.
  induction ops as [|o ops IH]; intros a b c H Hc; cbn in *.
  - injection Hc as <-. eauto.
  - apply bind_Ok in Hc. destruct Hc as (a' & Ha & Hc).
    destruct (apply_op_ext o a b a' H Ha) as (b' & -> & Hb). cbn. eauto.
Qed.

Lemma removelast_last {A} (l : list A) d : l <> [] -> l = removelast l ++ [last l d].
Proof. intros H. apply app_removelast_last. assumption. Qed.

Lemma last_indep {A} (l : list A) d d' : l <> [] -> last l d = last l d'.
Proof. induction l as [|x [|y l] IH]; intros H; [congruence|reflexivity|]. cbn in *. apply IH. discriminate. Qed.

(* appending one operation to a list of operations *)
Lemma ops_append_ok {V} ops o (a b c : arr V) : apply_ops ops a = Ok b -> apply_op o b = Ok c ->
  exists ops' d, ops_append ops o = Ok ops' /\ apply_ops ops' a = Ok d /\ arr_eq d c.
Proof.
  intros Hb Hc.
  assert (apply_ops (ops ++ [o]) a = Ok c) as Happ.
  { rewrite apply_ops_app, Hb. cbn. now rewrite Hc. }
  unfold ops_append. destruct (1 <? length ops) eqn:El.
  2:{ exists (ops ++ [o]), c. split; [reflexivity|]. split; [assumption|apply arr_eq_refl]. }
  apply Nat.ltb_lt in El.
  assert (ops <> []) as Hne by (intros ->; cbn in El; lia).
  destruct (last ops o) as [i|a1] eqn:Elast.
  { exists (ops ++ [o]), c. split; [reflexivity|]. split; [assumption|apply arr_eq_refl]. }
  destruct o as [i|a2].
  { exists (ops ++ [OpIndex i]), c. split; [reflexivity|]. split; [assumption|apply arr_eq_refl]. }
  rewrite (removelast_last ops (OpTranspose a2) Hne), Elast, apply_ops_app in Hb.
  apply bind_Ok in Hb. destruct Hb as (b0 & Hb0 & Hb). cbn in Hb.
  destruct (is_axes a1 (length (shp b0))) eqn:E1; [|discriminate]. injection Hb as <-.
  cbn in Hc. destruct (is_axes a2 _) eqn:E2; [|discriminate]. injection Hc as <-.
  apply is_axes_spec in E1, E2. rewrite map_length, (perm_len _ a1 E1) in E2.
  rewrite (comp_mapM _ a1 a2 E1 E2). cbn [bind].
  eexists. eexists. split; [reflexivity|]. rewrite apply_ops_app, Hb0. cbn [bind apply_ops apply_op].
  rewrite (proj2 (is_axes_spec _ _) (comp_perm _ a1 a2 E1 E2)). cbn.
  split; [reflexivity|]. apply arr_eq_sym, (transpose_comp _ a1 a2 E1 E2).
Qed.

Lemma record_ok {V} l : forall ops (a b c : arr V), apply_ops ops a = Ok b -> apply_ops l b = Ok c ->
  exists ops' d, record ops l = Ok ops' /\ apply_ops ops' a = Ok d /\ arr_eq d c.
Proof.
  induction l as [|o l IH]; intros ops a b c Hb Hc.
  - cbn in Hc. injection Hc as <-. exists ops, b. split; [reflexivity|]. split; [assumption|apply arr_eq_refl].
  - cbn [apply_ops] in Hc. apply bind_Ok in Hc. destruct Hc as (b' & Hb' & Hc).
    destruct (ops_append_ok ops o a b b' Hb Hb') as (ops1 & d & H1 & H2 & H3).
    destruct (apply_ops_ext l b' d c (arr_eq_sym _ _ H3) Hc) as (e & He & Hce).
    destruct (IH ops1 a d e H2 He) as (ops' & f & G1 & G2 & G3).
    exists ops', f. cbn [record]. rewrite H1. cbn. split; [assumption|]. split; [assumption|].
    eapply arr_eq_trans; [exact G3|]. now apply arr_eq_sym.
Qed.

(* moving an axis there and back *)
Lemma mv_back {V} (a : arr V) q p : q < length (shp a) -> p < length (shp a) -> arr_eq (mv p q (mv q p a)) a.
Proof.
  intros Hq Hp. split.
  - cbn [mv shp]. rewrite nth_insert_same, remove_insert_at by (rewrite length_remove_at; lia).
    now apply insert_remove_at.
  - intros o Ho. cbn [mv elt shp] in *.
    assert (length o = length (shp a)) as Hl.
    { rewrite (inside_length _ _ Ho), length_insert_at, length_remove_at by (rewrite length_insert_at, length_remove_at; lia).
      rewrite length_insert_at, length_remove_at; lia. }
    rewrite nth_insert_same, remove_insert_at by (rewrite length_remove_at; lia).
    f_equal. apply insert_remove_at. lia.
Qed.

Lemma move_axis_mv {V} (a : arr V) q p axes : q < length (shp a) -> p < length (shp a) ->
  move_axis (length (shp a)) q p = Some axes -> arr_eq (np_transpose a axes) (mv q p a).
Proof.
  intros Hq Hp H. unfold move_axis in H. destruct (Nat.eqb q p); [discriminate|]. injection H as <-.
  rewrite seq_nth by assumption. now apply transpose_mv.
Qed.

Lemma move_back {V} (a : arr V) q p axes axes' : q < length (shp a) -> p < length (shp a) ->
  move_axis (length (shp a)) q p = Some axes -> move_axis (length (shp a)) p q = Some axes' ->
  exists b, apply_ops [OpTranspose axes; OpTranspose axes'] a = Ok b /\ arr_eq b a.
Proof.
  intros Hq Hp H H'. cbn [apply_ops apply_op].
  rewrite (move_axis_ok _ _ _ _ Hq Hp H). cbn [bind].
  pose proof (move_axis_mv a q p axes Hq Hp H) as Hm.
  assert (length (shp (np_transpose a axes)) = length (shp a)) as Hl.
  { destruct Hm as [-> _]. cbn. rewrite length_insert_at, length_remove_at; lia. }
  rewrite Hl, (move_axis_ok _ _ _ _ Hp Hq H'). cbn [bind]. eexists. split; [reflexivity|].
  rewrite <- Hl in H', Hp, Hq.
  eapply arr_eq_trans; [apply (move_axis_mv _ p q axes' Hp Hq H')|].
  eapply arr_eq_trans; [apply (mv_ext p q _ _ Hp Hq Hm)|].
  apply mv_back; lia.
Qed.

(* where every axis goes: the moved one to its new place, the others keep their order *)
Lemma move_axis_order n q p axes : q < n -> p < n -> move_axis n q p = Some axes ->
  nth p axes 0 = q /\ remove_at p axes = remove_at q (seq 0 n).
Proof.
  intros Hq Hp H. unfold move_axis in H. destruct (Nat.eqb q p); [discriminate|]. injection H as <-.
  rewrite seq_nth by assumption.
  assert (p <= length (remove_at q (seq 0 n))) by (rewrite length_remove_at, seq_length; rewrite ?seq_length; lia).
  now rewrite nth_insert_same, remove_insert_at.
Qed.

(* ---- expand ---- *)
Lemma first_ell l : In Ell l -> exists pre post, l = pre ++ Ell :: post /\ ~ In Ell pre.
Proof.
  induction l as [|i l IH]; intros H; [destruct H|].
  destruct (is_ell i) eqn:E.
  - destruct i; try discriminate. exists [], l. split; [reflexivity|]. intros [].
  - destruct H as [->|H]; [discriminate|]. destruct (IH H) as (pre & post & -> & Hn).
    exists (i :: pre), post. split; [reflexivity|]. intros [->|Hi]; [discriminate|auto].
Qed.
Lemma replace_first pre post f : ~ In Ell pre -> replace_first_ell (pre ++ Ell :: post) f = pre ++ f ++ post.
Proof.
  induction pre as [|i pre IH]; intros H; [reflexivity|].
  cbn. destruct i; rewrite ?IH by (intros Hi; apply H; now right); try reflexivity.
  exfalso. apply H. now left.
Qed.
Lemma dims_app l m : dims (l ++ m) = dims l ++ dims m.
Proof. apply filter_app. Qed.
Lemma dims_full k : dims (repeat full k) = repeat full k.
Proof. unfold dims. induction k as [|k IH]; [reflexivity|]. cbn. now rewrite IH. Qed.
Lemma count_dims l : count (fun i => negb (is_new i)) l = length (dims l).
Proof. reflexivity. Qed.

(* the meaning of a tuple: one Ellipsis at most *)
Lemma expand_tuple l ndim l' : expand (Tup l) ndim = Ok l' -> count is_ell l <= 1 ->
  exists pre post k, (l = pre ++ Ell :: post /\ ~ In Ell pre /\ ~ In Ell post \/ l = pre /\ post = [] /\ ~ In Ell l) /\
    l' = Tup (pre ++ repeat full k ++ post) /\ length (dims pre) + k + length (dims post) = ndim.
Proof.
  intros H Hc. cbn [expand] in H.
  destruct (ndim <? _) eqn:E; [discriminate|]. apply Nat.ltb_ge in E. rewrite count_dims in *.
  destruct (existsb is_ell l) eqn:Ee.
  - apply In_ell in Ee. destruct (first_ell _ Ee) as (pre & post & -> & Hn).
    rewrite replace_first in H by assumption. injection H as <-.
    rewrite dims_app, app_length in *. cbn [dims filter is_new negb length] in *. fold (dims post) in *.
    exists pre, post. eexists. split; [left|split; [reflexivity|]].
    + split; [reflexivity|]. split; [assumption|].
      intros Hp. unfold count in Hc. rewrite filter_app, app_length in Hc. cbn in Hc.
      pose proof (proj1 (existsb_count post) (proj1 (In_ell post) Hp)) as Hq. unfold count in Hq. lia.
    + lia.
  - assert (~ In Ell l) as Hn by (intros Hi; apply In_ell in Hi; congruence).
    exists l, [], (ndim - length (dims l)). rewrite !app_nil_r. cbn [dims filter length]. split; [now right|].
    destruct (Nat.eqb_spec (length (dims l)) ndim) as [En|]; injection H as <-.
    + rewrite En, Nat.sub_diag. cbn [repeat app]. rewrite ?app_nil_r. split; [reflexivity|lia].
    + rewrite ?app_nil_r. split; [reflexivity|lia].
Qed.

Lemma expand_again l ndim l' : expand (Tup l) ndim = Ok (Tup l') -> count is_ell l <= 1 ->
  length (dims l') = ndim /\ ~ In Ell l' /\ expand (Tup l') ndim = Ok (Tup l').
Proof.
  intros H Hc. destruct (expand_tuple _ _ _ H Hc) as (pre & post & k & Hl & E & Hn). injection E as ->.
  assert (length (dims (pre ++ repeat full k ++ post)) = ndim) as Hd.
  { rewrite !dims_app, !app_length, dims_full, repeat_length. lia. }
  assert (~ In Ell (pre ++ repeat full k ++ post)) as He.
  { rewrite !in_app_iff. intros [Hi|[Hi|Hi]].
    - destruct Hl as [(-> & H1 & H2)|(-> & -> & H1)]; auto.
    - apply repeat_spec in Hi. discriminate.
    - destruct Hl as [(-> & H1 & H2)|(-> & -> & H1)]; auto. }
  split; [assumption|]. split; [assumption|].
  cbn [expand]. rewrite count_dims, Hd, Nat.ltb_irrefl, Nat.eqb_refl.
  destruct (existsb is_ell _) eqn:Ee; [|reflexivity]. apply In_ell in Ee. contradiction.
Qed.

Lemma expand_too_many l ndim : ndim < given l -> expand (Tup l) ndim = Err IndexError.
Proof.
  intros H. cbn [expand]. rewrite count_parts.
  destruct (Nat.ltb_spec ndim (given l + count is_ell l)); [reflexivity|lia].
Qed.

Lemma positiveaxis_ok axis ndim ax : ax < ndim -> (axis = Z.of_nat ax \/ axis = Z.of_nat ax - Z.of_nat ndim)%Z ->
  positiveaxis axis ndim = Ok ax.
Proof.
  intros Hax Ha. unfold positiveaxis.
  replace (if (axis <? 0)%Z then (axis + Z.of_nat ndim)%Z else axis) with (Z.of_nat ax).
  2:{ destruct (Z.ltb_spec axis 0); lia. }
  destruct (Z.ltb_spec (Z.of_nat ax) 0); [lia|]. destruct (Z.leb_spec (Z.of_nat ndim) (Z.of_nat ax)); [lia|].
  cbn. now rewrite Nat2Z.id.
Qed.
Lemma positiveaxis_err axis ndim : (axis < - Z.of_nat ndim \/ Z.of_nat ndim <= axis)%Z -> positiveaxis axis ndim = Err IndexError.
Proof.
  intros Ha. unfold positiveaxis.
  destruct (Z.ltb_spec axis 0) as [H|H]; destruct Ha as [Ha|Ha]; try lia.
  - destruct (Z.ltb_spec (axis + Z.of_nat ndim) 0); [reflexivity|lia].
  - destruct (Z.ltb_spec axis 0); [reflexivity|]. destruct (Z.leb_spec (Z.of_nat ndim) axis); [reflexivity|lia].
Qed.

Lemma getitem_stack_axis {Arg V} (gen : Arg -> arr V) (dflt : V) args ax axis st i l r :
  ax < length (shp st) -> (axis = Z.of_nat ax \/ axis = Z.of_nat ax - Z.of_nat (length (shp st)))%Z ->
  np_stack (map gen args) ax = Ok st ->
  supported i (length (shp st)) ->
  np_expand (tuple_of i) (length (shp st)) = Ok l -> uniform l -> bool_lists_ok l ax ->
  np_getitem st i = Ok r ->
  exists ia r0 used r',
    getitem gen dflt args i (length (shp st)) (Some (shp st)) axis = Ok (used, r') /\
    arr_eq r' r /\
    nth_error (dims l) ax = Some ia /\ resolve (length args) ia = Ok r0 /\
    Forall2 (fun p a => nth_error args p = Some a) (positions r0) used.
Proof.
  intros Hax Ha. apply getitem_stack; [assumption|]. now apply positiveaxis_ok.
Qed.

Lemma nonchanging_sel i n r : i <> Ell -> nonchanging1 i (Some n) = true -> resolve n i = Ok r -> positions r = seq 0 n.
Proof. intros Hi Hn Hr. eapply nonchanging_positions; eauto. Qed.
