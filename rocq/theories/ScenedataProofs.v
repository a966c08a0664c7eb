From Verif Require Import BaseProofs H5gridProofs ScenedataModel ScenedataSpec.
From Coq Require Import Lia Permutation.
Local Open Scope list_scope.
Local Open Scope nat_scope.

Lemma place_ok {V} (locate : nat -> V -> result Z) labels sd : forall dvs idx lab idx' lab', NoDup (map fst dvs) -> place locate labels sd dvs (idx, lab) = Ok (idx', lab') ->
  List.length idx' = List.length idx /\
  (forall d v, In (d, v) dvs -> exists j, locate d v = Ok j /\ nth_error idx' d = Some (At j) /\ (d = sd -> lab' = Some (labels j))) /\
  (forall d, ~ In d (map fst dvs) -> nth_error idx' d = nth_error idx d) /\ (~ In sd (map fst dvs) -> lab' = lab).
Proof.
  induction dvs as [|[d v] dvs IH]; intros idx lab idx' lab' N H.
  - cbn in H. assert (idx' = idx) as -> by congruence. assert (lab' = lab) as -> by congruence. repeat split; try easy. 
  - cbn [place fst snd] in H. destruct (d <? List.length idx) eqn:L; [|discriminate]. destruct (locate d v) as [j|] eqn:E; [|discriminate]. cbn [bind] in H.
    cbn [map fst] in N. inversion N as [|? ? N1 N2]; subst. apply IH in H as (H1 & H2 & H3 & H4); [|exact N2]. rewrite set_nth_length in H1.
    split; [exact H1|]. split; [|split].
    + intros d0 v0 [I|I].
      * assert (d0 = d) as -> by congruence. assert (v0 = v) as -> by congruence. exists j. split; [exact E|]. split.
        { rewrite (H3 d N1), nth_error_set_nth, Nat.eqb_refl, L. reflexivity. }
        { intros ->. rewrite (H4 N1). now rewrite Nat.eqb_refl. }
      * apply (H2 d0 v0 I).
    + intros d0 I. cbn [map fst In] in I. rewrite H3 by tauto. rewrite nth_error_set_nth. destruct (Nat.eqb_spec d d0); [exfalso; tauto|]. destruct (Nat.eqb_spec d0 d); [exfalso; intuition congruence|]. reflexivity.
    + cbn [map fst In]. intros I. rewrite H4 by tauto. destruct (Nat.eqb_spec d sd); [tauto|reflexivity].
Qed.

(* the k-th value of an item *)
Lemma item_values_nth {V} (m : V) n it vs k : item_values m n it = Ok vs -> k < n ->
  exists l, (it = Tuple l \/ exists v, it = Value v /\ l = [v]) /\ nth_error vs k = Some (nth k l m).
Proof.
  assert (forall (l : list V), k < n -> nth_error (l ++ repeat m (n - List.length l)) k = Some (nth k l m)) as G.
  { intros l L. destruct (Nat.lt_ge_cases k (List.length l)) as [A|A].
    - rewrite nth_error_app1 by exact A. now apply nth_error_nth'.
    - rewrite nth_error_app2 by exact A. rewrite nth_overflow by exact A. rewrite (nth_error_nth' _ m); [|rewrite repeat_length; lia]. f_equal. apply nth_repeat. }
  destruct it as [v|l|l]; cbn [item_values]; intros H L; [| |discriminate].
  - exists [v]. split; [right; eauto|]. assert (vs = [v] ++ repeat m (n - List.length [v])) as -> by (cbn; congruence). apply G. exact L.
  - exists l. split; [auto|]. assert (vs = l ++ repeat m (n - List.length l)) as -> by congruence. apply G. exact L.
Qed.
Lemma item_values_length {V} (m : V) n it vs : item_values m n it = Ok vs -> n <= List.length vs.
Proof.
  destruct it as [v|l|l]; cbn [item_values]; intros H; [| |discriminate]; [assert (vs = v :: repeat m (n - 1)) as -> by congruence|assert (vs = l ++ repeat m (n - List.length l)) as -> by congruence].
  - cbn. rewrite repeat_length. lia.
  - rewrite app_length, repeat_length. lia.
Qed.
Lemma combine_fst {A B} : forall (l : list A) (l' : list B), List.length l <= List.length l' -> map fst (combine l l') = l.
Proof. induction l as [|a l IH]; intros [|b l'] H; cbn in *; try reflexivity; try lia. f_equal. apply IH. lia. Qed.
Lemma combine_nth_in {A B} : forall (l : list A) (l' : list B) k a b, nth_error l k = Some a -> nth_error l' k = Some b -> In (a, b) (combine l l').
Proof.
  induction l as [|x l IH]; intros [|y l'] [|k] a b H G; cbn in *; try discriminate.
  - left. congruence.
  - right. eapply IH; eauto.
Qed.
Lemma place_items_ok {V} (locate : nat -> V -> result Z) labels minus1 sd sds n : NoDup sds -> In sd sds -> forall items st r, List.length (fst st) = n -> (forall d, d < n -> ~ In d sds -> nth_error (fst st) d = Some Slice) ->
  place_items locate labels minus1 sd sds items st = Ok r -> Forall2 (is_item locate labels minus1 sd sds n) items r.
Proof.
  intros N I. induction items as [|it items IH]; intros [idx lab] r L S0 H; cbn [place_items] in H.
  - assert (r = []) as -> by congruence. constructor.
  - destruct (item_values minus1 (List.length sds) it) as [vs|] eqn:E; [|discriminate]. cbn [bind] in H.
    destruct (place locate labels sd (combine sds vs) (idx, lab)) as [[idx' lab']|] eqn:P; [|discriminate]. cbn [bind fst snd] in H.
    pose proof (item_values_length _ _ _ _ E) as LV. apply place_ok in P as (P1 & P2 & P3 & P4); [|rewrite combine_fst; auto]. rewrite combine_fst in P3, P4 by exact LV. cbn [fst] in L, S0.
    destruct lab' as [lab'|]; [|discriminate]. destruct (place_items locate labels minus1 sd sds items (idx', Some lab')) as [r'|] eqn:R; [|discriminate]. cbn [bind] in H.
    assert (r = (idx', lab') :: r') as -> by congruence.
    assert (forall d, d < n -> ~ In d sds -> nth_error idx' d = Some Slice) as S1 by (intros d D1 D2; rewrite (P3 d D2); auto).
    constructor; [|apply (IH (idx', Some lab')); cbn [fst]; auto; congruence].
    split; [cbn; congruence|]. split; [|exact S1]. cbn [fst snd].
    assert (exists l, it = Tuple l \/ exists v, it = Value v /\ l = [v]) as (l & Hl) by (destruct it as [v|l|l]; [exists [v]; right; eauto|exists l; auto|discriminate]).
    exists l. split; [exact Hl|]. intros k d K. assert (k < List.length sds) as KL by (apply nth_error_Some; congruence).
    destruct (item_values_nth _ _ _ _ k E KL) as (l2 & Hl2 & Nv). assert (l2 = l) as -> by (destruct Hl as [->|(v & -> & ->)], Hl2 as [E2|(v2 & E2 & ->)]; congruence).
    destruct (P2 d (nth k l minus1)) as (j & J1 & J2 & J3); [eapply combine_nth_in; eauto|]. exists j. split; [exact J1|]. split; [exact J2|]. intros ->. specialize (J3 eq_refl). congruence.
Qed.
Lemma repeat_nth {A} (x : A) n d : d < n -> nth_error (repeat x n) d = Some x.
Proof. intros H. rewrite (nth_error_nth' _ x); [|now rewrite repeat_length]. f_equal. apply nth_repeat. Qed.
Theorem items_ok {P V} (g : stack P) (locate : nat -> V -> result Z) labels minus1 items r : NoDup (gstack_dims g) -> In (gstackdim g) (gstack_dims g) ->
  set_items g locate labels minus1 (Some items) = Ok r -> Forall2 (is_item locate labels minus1 (gstackdim g) (gstack_dims g) (List.length (gaxes g))) items r.
Proof.
  intros N I. unfold set_items. destruct (nth_error (gaxes g) (gstackdim g)) as [[? ?]|]; [|discriminate]. apply place_items_ok; auto; cbn [fst].
  - apply repeat_length.
  - intros d D _. now apply repeat_nth.
Qed.
Theorem all_items {P V} (g : stack P) (locate : nat -> V -> result Z) labels minus1 name n : nth_error (gaxes g) (gstackdim g) = Some (name, n) ->
  exists r, set_items g locate labels minus1 None = Ok r /\ List.length r = n /\
    forall i, i < n -> exists idx, nth_error r i = Some (idx, labels (Z.of_nat i)) /\
      forall d, d < List.length (gaxes g) -> nth_error idx d = Some (if d =? gstackdim g then At (Z.of_nat i) else Slice).
Proof.
  intros E. unfold set_items. rewrite E. eexists. split; [reflexivity|]. split; [now rewrite map_length, seq_length|]. intros i I.
  eexists. rewrite nth_error_map. assert (nth_error (seq 0 n) i = Some i) as -> by (rewrite (nth_error_nth' _ 0) by (now rewrite seq_length); f_equal; now rewrite seq_nth). split; [reflexivity|].
  intros d D. rewrite nth_error_set_nth, repeat_length. assert (gstackdim g <? List.length (gaxes g) = true) as -> by (apply Nat.ltb_lt, nth_error_Some; congruence).
  destruct (d =? gstackdim g); [reflexivity|]. now apply repeat_nth.
Qed.
Theorem list_item {P V} (g : stack P) (locate : nat -> V -> result Z) labels minus1 l items : gstackdim g < List.length (gaxes g) -> set_items g locate labels minus1 (Some (AList l :: items)) = Err TypeError.
Proof. intros H. unfold set_items. destruct (nth_error (gaxes g) (gstackdim g)) as [[? ?]|] eqn:E; [reflexivity|]. apply nth_error_None in E. lia. Qed.
(* the selection by integers in the stack dimensions has the image axes *)
Lemma selected_ok dims : forall sh idx k, List.length idx = List.length sh ->
  (forall i n, nth_error sh i = Some n -> if existsb (Nat.eqb (k + i)) dims then exists j, nth_error idx i = Some (At j) /\ (- Z.of_nat n <= j < Z.of_nat n)%Z else nth_error idx i = Some Slice) ->
  selected idx sh = Ok (flat_map (fun d => match nth_error sh (d - k) with Some a => [a] | None => [] end) (filter (fun i => negb (existsb (Nat.eqb i) dims)) (seq k (List.length sh)))).
Proof.
  induction sh as [|n sh IH]; intros [|x idx] k L H; try discriminate; [reflexivity|]. cbn [List.length seq filter] in *.
  assert (forall d, In d (filter (fun i => negb (existsb (Nat.eqb i) dims)) (seq (S k) (List.length sh))) -> S k <= d) as D by (intros d I; apply filter_In in I as [I _]; apply in_seq in I; lia).
  assert (selected idx sh = Ok (flat_map (fun d => match nth_error (n :: sh) (d - k) with Some a => [a] | None => [] end) (filter (fun i => negb (existsb (Nat.eqb i) dims)) (seq (S k) (List.length sh))))) as R.
  { rewrite (IH idx (S k)); [|lia|].
    - f_equal. revert D. generalize (filter (fun i => negb (existsb (Nat.eqb i) dims)) (seq (S k) (List.length sh))). induction l as [|d l IHl]; intros D; [reflexivity|]. cbn [flat_map]. rewrite IHl by (intros; apply D; now right).
      f_equal. assert (S k <= d) by (apply D; now left). replace (d - k) with (S (d - S k)) by lia. reflexivity.
    - intros i m E. specialize (H (S i) m E). replace (S k + i) with (k + S i) by lia. exact H. }
  specialize (H 0 n eq_refl). rewrite Nat.add_0_r in H. destruct (existsb (Nat.eqb k) dims); cbn [negb].
  - destruct H as (j & J & B). cbn in J. assert (x = At j) as -> by congruence. cbn [selected].
    assert (((- Z.of_nat n <=? j) && (j <? Z.of_nat n))%Z = true) as -> by (apply andb_true_intro; split; [apply Z.leb_le|apply Z.ltb_lt]; lia). exact R.
  - cbn in H. assert (x = Slice) as -> by congruence. cbn [selected flat_map]. rewrite R, Nat.sub_diag. reflexivity.
Qed.
Lemma axes_sizes {P} (g : stack P) : map snd (axes_of g) = flat_map (fun d => match nth_error (gshape g) (d - 0) with Some a => [a] | None => [] end) (image_dims g).
Proof.
  unfold axes_of, gshape. generalize (image_dims g). induction l as [|d l IH]; [reflexivity|]. cbn [flat_map]. rewrite map_app, IH, Nat.sub_0_r, nth_error_map. destruct (nth_error (gaxes g) d) as [[? ?]|]; reflexivity.
Qed.
Theorem item_selects {P V} (g : stack P) (locate : nat -> V -> result Z) labels minus1 it x : is_item locate labels minus1 (gstackdim g) (gstack_dims g) (List.length (gaxes g)) it x ->
  (forall d v j n, locate d v = Ok j -> nth_error (gshape g) d = Some n -> (- Z.of_nat n <= j < Z.of_nat n)%Z) -> selected (fst x) (gshape g) = Ok (map snd (axes_of g)).
Proof.
  intros (L & (l & _ & Hl) & S0) B. rewrite axes_sizes. unfold image_dims, other_dims. replace (List.length (gaxes g)) with (List.length (gshape g)) by (unfold gshape; apply map_length).
  apply selected_ok; [unfold gshape; rewrite map_length; exact L|]. intros i n E. cbn [Nat.add]. destruct (existsb (Nat.eqb i) (gstack_dims g)) eqn:X.
  - apply existsb_exists in X as (d & I & Q). apply Nat.eqb_eq in Q. subst d. apply In_nth_error in I as (k & K). destruct (Hl k i K) as (j & J1 & J2 & _). exists j. split; [exact J2|]. eapply B; eauto.
  - apply S0.
    + apply nth_error_Some. unfold gshape in E. rewrite nth_error_map in E. destruct (nth_error (gaxes g) i); [discriminate|discriminate].
    + intros I. assert (existsb (Nat.eqb i) (gstack_dims g) = true) by (apply existsb_exists; exists i; split; [exact I|apply Nat.eqb_refl]). congruence.
Qed.
