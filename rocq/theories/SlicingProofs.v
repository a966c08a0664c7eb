From Verif Require Import BaseProofs NumpyProofs SlicingModel SlicingSpec.
From Coq Require Import QArith Sorting.Sorted.
Local Open Scope nat_scope.

Lemma where_true_in l : forall k j, In j (where_true k l) <-> k <= j /\ nth_error l (j - k) = Some true.
Proof.
  induction l as [|b l IH]; intros k j; cbn.
  - split; [intros []|]. intros [_ H]. destruct (j - k); discriminate.
  - assert (In j (where_true (S k) l) <-> S k <= j /\ nth_error (b :: l) (j - k) = Some true) as E.
    { rewrite IH. split; intros [H1 H2]; split; auto.
      - replace (j - k) with (S (j - S k)) by lia. exact H2.
      - replace (j - k) with (S (j - S k)) in H2 by lia. exact H2. }
    destruct b; cbn [In]; rewrite E.
    + split.
      * intros [->|[H1 H2]]; [split; [lia|now rewrite Nat.sub_diag]|split; [lia|assumption]].
      * intros [H1 H2]. destruct (Nat.eq_dec k j); [now left|right; split; [lia|assumption]].
    + split; intros [H1 H2]; (split; [lia|assumption]) || (split; [|assumption]).
      destruct (Nat.eq_dec k j) as [->|]; [|lia]. rewrite Nat.sub_diag in H2. discriminate.
Qed.

Lemma cumprod_length l : forall p, length (cumprod_from p l) = length l.
Proof. induction l; intros; cbn; congruence. Qed.

Fixpoint prod (l : list nat) : nat := match l with [] => 1 | n :: l' => n * prod l' end.

Lemma cumprod_nth l : forall p k x, nth_error (cumprod_from p l) k = Some x -> x = p * prod (firstn (S k) l).
Proof.
  induction l as [|n l IH]; intros p k x H; [destruct k; discriminate|].
  destruct k; cbn [cumprod_from nth_error] in H.
  - injection H as <-. cbn. lia.
  - apply IH in H. rewrite H. cbn [firstn prod]. lia.
Qed.

Lemma find_axis_spec shape nb thr :
  (find_slice_axis shape nb thr < length shape /\
     (megabytes (prod (firstn (S (find_slice_axis shape nb thr)) shape)) nb <= thr)%Q) \/
  (find_slice_axis shape nb thr = 0 /\
     forall k, k < length shape -> ~ (megabytes (prod (firstn (S k) shape)) nb <= thr)%Q).
Proof.
  unfold find_slice_axis.
  set (fl := map _ (map _ _)).
  assert (length fl = length shape) as Hl by (unfold fl; rewrite !map_length; apply cumprod_length).
  assert (forall k b, nth_error fl k = Some b ->
            b = Qle_bool (megabytes (prod (firstn (S k) shape)) nb) thr) as Hfl.
  { intros k b H. unfold fl in H. rewrite !nth_error_map in H. unfold cumprod in H.
    destruct (nth_error (cumprod_from 1 shape) k) as [x|] eqn:E; [|discriminate]. cbn in H. injection H as <-.
    apply cumprod_nth in E. rewrite Nat.mul_1_l in E. now rewrite E. }
  destruct (rev (where_true 0 fl)) as [|a r] eqn:E.
  - right. split; [reflexivity|]. intros k Hk Hle.
    apply (f_equal (@rev nat)) in E. rewrite rev_involutive in E. cbn in E.
    destruct (nth_error fl k) as [b|] eqn:Ek; [|apply nth_error_None in Ek; lia].
    pose proof (Hfl _ _ Ek) as Hb. rewrite (proj2 (Qle_bool_iff _ _) Hle) in Hb. subst b.
    assert (In k (where_true 0 fl)) as Hi by (apply where_true_in; rewrite Nat.sub_0_r; split; [lia|assumption]).
    now rewrite E in Hi.
  - left. assert (In a (where_true 0 fl)) as Hi by (apply in_rev; rewrite E; now left).
    apply where_true_in in Hi. rewrite Nat.sub_0_r in Hi. destruct Hi as [_ Hi].
    split; [rewrite <- Hl; apply nth_error_Some; congruence|].
    apply Hfl in Hi. apply Qle_bool_iff. congruence.
Qed.

Lemma axis_lt shape nb thr : shape <> [] -> find_slice_axis shape nb thr < length shape.
Proof.
  intros H. destruct (find_axis_spec shape nb thr) as [[H1 _]|[-> _]]; [assumption|].
  destruct shape; [congruence|cbn; lia].
Qed.

(* ---- products ---- *)
Lemma in_product {A} (ls : list (list A)) : forall x, In x (product ls) <-> Forall2 (fun l y => In y l) ls x.
Proof.
  induction ls as [|l ls IH]; intros x; cbn.
  - split; [intros [<-|[]]; constructor|]. intros H. inversion H. now left.
  - rewrite in_flat_map. split.
    + intros (y & Hy & H). apply in_map_iff in H. destruct H as (z & <- & Hz). constructor; [assumption|now apply IH].
    + intros H. inversion H; subst. eexists. split; [eassumption|]. apply in_map. now apply IH.
Qed.

Definition blex (a b : list choice) : Prop := lex (numbers a) (numbers b).

Definition level (l : list choice) : Prop := l = [Whole] \/ exists n, l = map At (seq 0 n).

Lemma numbers_len ls x : Forall level ls -> Forall2 (fun l y => In y l) ls x -> forall y,
  Forall2 (fun l y => In y l) ls y -> length (numbers x) = length (numbers y).
Proof.
  intros Hl Hx. induction Hx as [|l c ls x Hc Hx IH]; intros y Hy; inversion Hy as [|? c' ? y' Hc' Hy']; subst; [reflexivity|].
  inversion Hl as [|? ? Hll Hls]; subst. specialize (IH Hls _ Hy').
  destruct Hll as [->|(n & ->)].
  - destruct Hc as [<-|[]]. destruct Hc' as [<-|[]]. exact IH.
  - apply in_map_iff in Hc. destruct Hc as (k & <- & _). apply in_map_iff in Hc'. destruct Hc' as (k' & <- & _).
    cbn. f_equal. exact IH.
Qed.

Lemma sorted_app {A} (R : A -> A -> Prop) l m : StronglySorted R l -> StronglySorted R m ->
  (forall x y, In x l -> In y m -> R x y) -> StronglySorted R (l ++ m).
Proof.
  intros Hl Hm H. induction l as [|a l IH]; [assumption|]. cbn. inversion Hl; subst. constructor.
  - apply IH; [assumption|]. intros; apply H; [now right|assumption].
  - apply Forall_app. split; [assumption|]. apply Forall_forall. intros y Hy. apply H; [now left|assumption].
Qed.

Lemma product_sorted ls : Forall level ls -> StronglySorted blex (product ls) \/ Forall (fun l => l = [Whole]) ls.
Proof.
  induction ls as [|l ls IH]; intros H; [right; constructor|].
  inversion H as [|? ? Hl Hls]; subst. destruct (IH Hls) as [Hs|Hw].
  - left. destruct Hl as [->|(n & ->)].
    + cbn. rewrite app_nil_r. induction Hs as [|b bs Hbs IHs Hb]; cbn; constructor; auto.
      rewrite Forall_map. eapply Forall_impl; [|exact Hb]. cbn. intros c Hc. exact Hc.
    + cbn [product]. generalize 0. induction n as [|n IHn]; intros k; cbn; [constructor|].
      apply sorted_app.
      * clear IHn. induction Hs as [|b bs Hbs IHs Hb]; cbn; constructor; auto.
        rewrite Forall_map. eapply Forall_impl; [|exact Hb]. cbn. intros c Hc. now constructor.
      * apply IHn. constructor; [right; now exists n|assumption].
      * intros x y Hx Hy. apply in_map_iff in Hx. destruct Hx as (x' & <- & Hx).
        apply in_flat_map in Hy. destruct Hy as (c & Hc & Hy). apply in_map_iff in Hy. destruct Hy as (y' & <- & Hy).
        apply in_map_iff in Hc. destruct Hc as (j & <- & Hj). apply in_seq in Hj.
        unfold blex. cbn. constructor; [lia|].
        apply in_product in Hx. apply in_product in Hy. eapply numbers_len; eauto.
  - destruct Hl as [->|(n & ->)]; [right; constructor; auto|left].
    cbn [product].
    assert (product ls = [repeat Whole (length ls)]) as ->.
    { clear -Hw. induction Hw as [|l ls -> Hw IH]; [reflexivity|]. cbn. rewrite IH. reflexivity. }
    assert (forall m, numbers (repeat Whole m) = []) as Hn by (induction m; cbn; auto).
    generalize 0. induction n as [|n IHn]; intros k; cbn; [constructor|].
    constructor; [apply IHn; constructor; [right; now exists n|assumption]|].
    apply Forall_forall. intros y Hy. apply in_flat_map in Hy. destruct Hy as (c & Hc & Hy).
    destruct Hy as [<-|[]]. apply in_map_iff in Hc. destruct Hc as (j & <- & Hj). apply in_seq in Hj.
    unfold blex. cbn. rewrite Hn. constructor; [lia|reflexivity].
Qed.

Lemma levels shape a : Forall level (repeat [Whole] a ++ map (fun n => map At (seq 0 n)) (skipn a shape)).
Proof.
  apply Forall_app. split.
  - apply Forall_forall. intros x Hx. apply repeat_spec in Hx. now left.
  - apply Forall_forall. intros x Hx. apply in_map_iff in Hx. destruct Hx as (n & <- & _). right. now exists n.
Qed.

Lemma product_whole m : product (repeat [Whole] m) = [repeat Whole m].
Proof. induction m; cbn; [reflexivity|]. rewrite IHm. reflexivity. Qed.

Lemma blocks_sorted shape nb thr : StronglySorted blex (slice_generator shape nb thr).
Proof.
  unfold slice_generator. set (a := S _).
  destruct (product_sorted _ (levels shape a)) as [H|H]; [exact H|].
  apply Forall_app in H. destruct H as [_ H].
  destruct (skipn a shape) as [|n l].
  - cbn [map]. rewrite app_nil_r, product_whole. repeat constructor.
  - exfalso. inversion H as [|? ? E _]. destruct n as [|n]; cbn in E; [discriminate|]. discriminate.
Qed.

Lemma block_form a shape b : a <= length shape ->
  In b (product (repeat [Whole] a ++ map (fun n => map At (seq 0 n)) (skipn a shape))) <->
  exists t, inside (skipn a shape) t /\ b = repeat Whole a ++ map At t.
Proof.
  intros Ha. rewrite in_product. split.
  - intros H. apply Forall2_app_inv_l in H. destruct H as (b1 & b2 & H1 & H2 & ->).
    assert (b1 = repeat Whole a) as ->.
    { clear -H1. revert b1 H1. induction a as [|a IH]; intros b1 H; inversion H as [|? c ? b' Hc Hb]; subst; [reflexivity|].
      cbn. destruct Hc as [<-|[]]. f_equal. now apply IH. }
    revert b2 H2. generalize (skipn a shape). intros s.
    induction s as [|n s IH]; intros b2 H; inversion H as [|? c ? b' Hc Hb]; subst.
    + exists []. split; [constructor|reflexivity].
    + apply IH in Hb. destruct Hb as (t & Ht & E). apply app_inv_head in E. subst b'.
      apply in_map_iff in Hc. destruct Hc as (k & <- & Hk). apply in_seq in Hk.
      exists (k :: t). split; [constructor; [lia|assumption]|reflexivity].
  - intros (t & Ht & ->). apply Forall2_app.
    + clear. induction a; cbn; constructor; auto. now left.
    + clear -Ht. induction Ht; cbn; constructor; auto. apply in_map, in_seq. lia.
Qed.

Lemma in_block_form a o t : in_block o (repeat Whole a ++ map At t) <-> a <= length o /\ skipn a o = t.
Proof.
  revert o. induction a as [|a IH]; intros o; cbn [repeat app].
  - cbn [skipn]. split.
    + intros H. split; [lia|]. unfold in_block in H. revert o H. induction t as [|k t IHt]; intros o H; inversion H; subst; [reflexivity|].
      match goal with h : in_choice _ _ |- _ => cbn in h; subst end. f_equal. now apply IHt.
    + intros [_ ->]. induction t; cbn; constructor; auto. reflexivity.
  - split.
    + intros H. inversion H as [|k c o' b Hc Hb]; subst. apply IH in Hb. cbn. split; [lia|apply Hb].
    + destruct o as [|k o]; cbn; intros [H1 H2]; [lia|]. constructor; [exact I|]. apply IH. split; [lia|assumption].
Qed.

Lemma inside_skipn a s o : inside s o -> inside (skipn a s) (skipn a o).
Proof. unfold inside. intros H. revert a. induction H; intros [|a]; cbn; auto. Qed.

Lemma lex_irrefl l : ~ lex l l.
Proof. induction l; intros H; inversion H; subst; [lia|auto]. Qed.

Lemma sorted_nodup {A} (R : A -> A -> Prop) l : (forall x, ~ R x x) -> StronglySorted R l -> NoDup l.
Proof.
  intros Hi H. induction H as [|a l Hs IH Hf]; constructor; auto.
  intros Ha. rewrite Forall_forall in Hf. apply (Hi a), Hf, Ha.
Qed.

Lemma blocks_cover shape nb thr o : shape <> [] -> inside shape o ->
  exists j b, nth_error (slice_generator shape nb thr) j = Some b /\ in_block o b /\
    forall j' b', nth_error (slice_generator shape nb thr) j' = Some b' -> in_block o b' -> j' = j.
Proof.
  intros Hne Ho. pose proof (axis_lt shape nb thr Hne) as Ha.
  pose proof (blocks_sorted shape nb thr) as Hs.
  assert (NoDup (slice_generator shape nb thr)) as Hnd by (eapply sorted_nodup; [|exact Hs]; intros x; apply lex_irrefl).
  unfold slice_generator in *. set (a := S (find_slice_axis shape nb thr)) in *.
  set (l := product _) in *.
  assert (forall b, In b l -> in_block o b -> b = repeat Whole a ++ map At (skipn a o)) as Huniq.
  { intros b Hb Hin. apply block_form in Hb; [|lia]. destruct Hb as (t & _ & ->). apply in_block_form in Hin.
    destruct Hin as [_ ->]. reflexivity. }
  assert (In (repeat Whole a ++ map At (skipn a o)) l) as Hin.
  { apply block_form; [lia|]. exists (skipn a o). split; [now apply inside_skipn|reflexivity]. }
  apply In_nth_error in Hin. destruct Hin as (j & Hj).
  exists j, (repeat Whole a ++ map At (skipn a o)). split; [assumption|]. split.
  - apply in_block_form. rewrite (inside_length _ _ Ho). split; [lia|reflexivity].
  - intros j' b' Hj' Hb'. apply Huniq in Hb'; [|eapply nth_error_In; eauto]. subst b'.
    apply (proj1 (NoDup_nth_error l) Hnd); [apply nth_error_Some; congruence|congruence].
Qed.

Lemma block_size_form shape a t : a <= length shape -> length t = length shape - a ->
  block_size shape (repeat Whole a ++ map At t) = prod (firstn a shape).
Proof.
  revert a. induction shape as [|n s IH]; intros a Ha Ht; cbn in *.
  - destruct a; [|lia]. destruct t; [reflexivity|discriminate].
  - destruct a as [|a]; cbn [repeat app firstn prod].
    + destruct t as [|k t]; [discriminate|]. cbn [map].
      specialize (IH 0 ltac:(lia)). cbn in IH. clear Ha. revert t Ht IH. clear. intros t Ht IH.
      rewrite Nat.sub_0_r in *. cbn in Ht. 
      assert (forall s t, length t = length s -> block_size s (map At t) = 1) as H.
      { clear. induction s as [|n s IH]; intros [|k t] H; try discriminate; [reflexivity|]. cbn. apply IH. cbn in H. lia. }
      apply H. lia.
    + f_equal. apply IH; lia.
Qed.

Lemma blocks_size shape nb thr b : shape <> [] -> In b (slice_generator shape nb thr) ->
  (megabytes (block_size shape b) nb <= thr)%Q \/
  (block_size shape b = hd 1%nat shape /\ ~ (megabytes (hd 1%nat shape) nb <= thr)%Q).
Proof.
  intros Hne Hb. pose proof (axis_lt shape nb thr Hne) as Ha.
  unfold slice_generator in Hb. apply block_form in Hb; [|lia]. destruct Hb as (t & Ht & ->).
  assert (length t = length shape - S (find_slice_axis shape nb thr)) as Hl.
  { rewrite (inside_length _ _ Ht). apply skipn_length. }
  rewrite block_size_form by (assumption || lia).
  destruct (find_axis_spec shape nb thr) as [[_ H]|[-> H]]; [now left|].
  right. destruct shape as [|n s]; [congruence|].
  assert (prod (firstn 1 (n :: s)) = n) as E by (cbn; lia).
  specialize (H 0 ltac:(cbn; lia)). rewrite E in *. split; [reflexivity|exact H].
Qed.

(* the threshold is used as far as possible: one more whole dimension would not fit *)
Lemma axis_maximal shape nb thr k : find_slice_axis shape nb thr < k -> k < length shape ->
  ~ (megabytes (prod (firstn (S k) shape)) nb <= thr)%Q.
Proof.
  unfold find_slice_axis. set (fl := map _ (map _ _)). intros Hk Hlt Hle.
  assert (nth_error fl k = Some true) as E.
  { unfold fl. rewrite !nth_error_map. unfold cumprod.
    destruct (nth_error (cumprod_from 1 shape) k) as [x|] eqn:E.
    - cbn. f_equal. apply cumprod_nth in E. rewrite Nat.mul_1_l in E. rewrite E. now apply Qle_bool_iff.
    - apply nth_error_None in E. rewrite cumprod_length in E. lia. }
  assert (In k (where_true 0 fl)) as Hi by (apply where_true_in; rewrite Nat.sub_0_r; split; [lia|assumption]).
  assert (forall l a, StronglySorted lt (where_true a l) /\ Forall (le a) (where_true a l)) as Hs.
  { clear. induction l as [|b l IH]; intros a; cbn; [repeat constructor|].
    destruct (IH (S a)) as [H1 H2].
    assert (Forall (le a) (where_true (S a) l)) by (eapply Forall_impl; [|exact H2]; cbn; lia).
    destruct b; [|split; assumption]. split; constructor; auto. }
  destruct (Hs fl 0) as [Hs0 _]. clear Hs.
  destruct (rev (where_true 0 fl)) as [|a r] eqn:Er.
  - apply (f_equal (@rev nat)) in Er. rewrite rev_involutive in Er. cbn in Er. now rewrite Er in Hi.
  - apply (f_equal (@rev nat)) in Er. rewrite rev_involutive in Er. cbn [rev] in Er. rewrite Er in Hi, Hs0.
    apply in_app_iff in Hi. destruct Hi as [Hi|[->|[]]]; [|lia].
    clear -Hs0 Hi Hk. revert Hs0 Hi. induction (rev r) as [|x l IH]; intros H Hi; [destruct Hi|].
    cbn in H. inversion H as [|? ? Hs Hf]; subst. destruct Hi as [->|Hi]; [|auto].
    rewrite Forall_forall in Hf. specialize (Hf a ltac:(apply in_app_iff; right; now left)). lia.
Qed.
