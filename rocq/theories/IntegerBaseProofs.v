From Verif Require Import BaseProofs IntegerBaseModel IntegerBaseSpec.

Section P.
Context {A : Type} (eqb : A -> A -> bool) (Heqb : decides_eq eqb) (minus : A) (digs : list A).
Notation base := (base digs).
Notation digit_loop := (digit_loop digs).
Notation int2base := (int2base minus digs).
Notation base2int := (base2int eqb digs).
Notation R := (fun c k => nth_error digs k = Some c).

Fixpoint lval (ks : list nat) : Z :=
  match ks with [] => 0 | k :: ks' => Z.of_nat k + base * lval ks' end.

Lemma lval_app ks ks' : lval (ks ++ ks') = lval ks + base ^ Z.of_nat (length ks) * lval ks'.
Proof.
  induction ks as [|k ks IH]; cbn [app lval length].
  - rewrite Z.pow_0_r. lia.
  - rewrite IH. rewrite Nat2Z.inj_succ, Z.pow_succ_r by lia. ring.
Qed.

Lemma horner_lval ks :
  fold_left (fun v k => v * base + Z.of_nat k) ks 0 = lval (rev ks).
Proof.
  induction ks as [|k ks IH] using rev_ind; [reflexivity|].
  rewrite fold_left_app, rev_app_distr. cbn [fold_left rev app lval]. rewrite IH. ring.
Qed.

Lemma denotes_lval s v : denotes digs s v <-> exists ks, Forall2 R (rev s) ks /\ v = lval ks.
Proof.
  unfold denotes. fold base. split.
  - intros (ks & HF & ->). exists (rev ks). split; [|apply horner_lval].
    clear -HF. induction HF as [|c k s ks H HF IH]; cbn; [constructor|].
    apply Forall2_app; [exact IH|]. repeat constructor; exact H.
  - intros (ks & HF & ->). exists (rev ks). split.
    + rewrite <- (rev_involutive s). revert HF. generalize (rev s). intros l HF.
      induction HF as [|c k l ks H HF IH]; cbn; [constructor|].
      apply Forall2_app; [exact IH|]. repeat constructor; exact H.
    + rewrite horner_lval, rev_involutive. reflexivity.
Qed.

Lemma index_of_nth l a k : index_of eqb l a = Ok k -> nth_error l k = Some a.
Proof.
  revert k; induction l as [|b l IH]; cbn; intros k; [discriminate|].
  destruct (eqb b a) eqn:E.
  - intros [= <-]. apply Heqb in E. now subst.
  - destruct (index_of eqb l a) as [j|]; cbn; [|discriminate]. intros [= <-]. cbn. auto.
Qed.

Lemma nth_index_of l a k : NoDup l -> nth_error l k = Some a -> index_of eqb l a = Ok k.
Proof.
  intros Hn. revert k; induction Hn as [|b l Hb Hn IH]; intros k H; [destruct k; discriminate|].
  cbn. destruct k as [|k]; cbn in H.
  - injection H as ->. now rewrite (deq_refl _ Heqb).
  - assert (Hne : b <> a) by (intros ->; apply Hb; eapply nth_error_In; eauto).
    rewrite (proj2 (deq_neq _ Heqb b a) Hne). rewrite (IH _ H). reflexivity.
Qed.

Lemma index_of_err l a e : index_of eqb l a = Err e <-> e = ValueError /\ ~ In a l.
Proof.
  induction l as [|b l IH]; cbn; [intuition congruence|].
  destruct (eqb b a) eqn:E.
  - apply Heqb in E. subst. split; [discriminate|tauto].
  - assert (b <> a). { intros ->. rewrite (deq_refl _ Heqb) in E. discriminate. }
    destruct (index_of eqb l a) as [k|e'] eqn:Ei; cbn.
    + split; [discriminate|]. intros [-> Hn]. exfalso.
      apply index_of_nth in Ei. apply nth_error_In in Ei. tauto.
    + rewrite IH. tauto.
Qed.

Lemma value_loop_ok (Hn : NoDup digs) y : forall i val v,
  value_loop eqb digs i val y = Ok v <->
  exists ks, Forall2 R y ks /\ v = val + base ^ Z.of_nat i * lval ks.
Proof.
  induction y as [|c y IH]; intros i val v; cbn [value_loop].
  - split.
    + intros [= <-]. exists []. split; [constructor|]. cbn [lval]. lia.
    + intros (ks & HF & ->). inversion HF. cbn [lval]. f_equal. lia.
  - destruct (index_of eqb digs c) as [k|e] eqn:E; cbn [bind].
    + apply index_of_nth in E. rewrite IH. split.
      * intros (ks & HF & ->). exists (k :: ks). split; [constructor; auto|].
        cbn [lval]. rewrite Nat2Z.inj_succ, Z.pow_succ_r by lia. ring.
      * intros (ks & HF & ->). inversion HF as [|? k' ? ks' Hk HF']; subst.
        assert (k' = k) by (eapply (proj1 (NoDup_nth_error digs) Hn);
          [apply nth_error_Some; congruence|congruence]). subst k'.
        exists ks'. split; [exact HF'|]. cbn [lval]. rewrite Nat2Z.inj_succ, Z.pow_succ_r by lia. ring.
    + apply index_of_err in E. destruct E as [-> Hi]. split; [discriminate|].
      intros (ks & HF & ->). inversion HF as [|? k' ? ks' Hk HF']; subst.
      apply nth_error_In in Hk. tauto.
Qed.

Lemma base2int_denotes s v : NoDup digs -> base2int s = Ok v <-> denotes digs s v.
Proof.
  intros Hn. rewrite denotes_lval. unfold IntegerBaseModel.base2int. rewrite (value_loop_ok Hn).
  split; intros (ks & HF & ->); exists ks; (split; [exact HF|]); rewrite Z.pow_0_r; lia.
Qed.

Lemma value_loop_err y : forall i val e,
  value_loop eqb digs i val y = Err e <-> e = ValueError /\ ~ Forall (fun c => In c digs) y.
Proof.
  induction y as [|c y IH]; intros i val e; cbn [value_loop].
  - split; [discriminate|]. intros [_ H]. exfalso. apply H. constructor.
  - destruct (index_of eqb digs c) as [k|e'] eqn:E; cbn [bind].
    + apply index_of_nth in E. apply nth_error_In in E. rewrite IH. rewrite Forall_cons_iff. tauto.
    + apply index_of_err in E. destruct E as [-> Hi]. rewrite Forall_cons_iff.
      split; [intros [= <-]; tauto|]. intros [-> _]. reflexivity.
Qed.

Lemma base2int_err s e :
  base2int s = Err e <-> e = ValueError /\ exists c, In c s /\ ~ In c digs.
Proof.
  unfold IntegerBaseModel.base2int. rewrite value_loop_err.
  assert (Hd : forall c, {In c digs} + {~ In c digs}).
  { intros c. apply in_dec. intros a b. destruct (eqb a b) eqn:E.
    - left. now apply Heqb. - right. intros ->. rewrite (deq_refl _ Heqb) in E. discriminate. }
  rewrite <- Exists_Forall_neg.
  - rewrite Exists_exists. split; intros [He (c & Hc & H)]; (split; [exact He|]); exists c;
      (split; [|exact H]); [apply in_rev; exact Hc|apply in_rev in Hc; exact Hc].
  - intros c. destruct (Hd c); tauto.
Qed.

Lemma digit_loop_ok : 2 <= base -> forall fuel x,
  0 <= x -> x <= Z.of_nat fuel ->
  exists ds ks, digit_loop fuel x = Some (Ok ds) /\ Forall2 R ds ks /\ lval ks = x /\
    Forall (fun k => Z.of_nat k < base) ks /\ (x <> 0 -> exists ks' k, ks = ks' ++ [k] /\ k <> O).
Proof.
  intros Hb. induction fuel as [|fuel IH]; intros x Hx Hf.
  - assert (x = 0) by lia. subst. exists [], []. cbn. repeat split; auto. intros; congruence.
  - cbn [IntegerBaseModel.digit_loop]. destruct (Z.eqb_spec x 0) as [->|Hx0].
    + exists [], []. cbn. repeat split; auto. intros; congruence.
    + destruct (Z.eqb_spec base 0) as [E|_]; [lia|].
      pose proof (Z.mod_pos_bound x base ltac:(lia)) as Hm.
      pose proof (Z.div_mod x base ltac:(lia)) as Hdm.
      assert (Hq0 : 0 <= x / base) by (apply Z.div_pos; lia).
      assert (Hq1 : x / base < x) by (apply Z.div_lt; lia).
      destruct (IH (x / base) Hq0 ltac:(lia)) as (ds & ks & Hl & HF & Hv & Hlt & Hlast).
      unfold py_get. rewrite py_pos_nonneg by (unfold IntegerBaseModel.base in *; lia).
      destruct (nth_error digs (Z.to_nat (x mod base))) as [d|] eqn:Ed.
      2: { apply nth_error_None in Ed. unfold IntegerBaseModel.base in *. lia. }
      rewrite Hl. exists (d :: ds), (Z.to_nat (x mod base) :: ks).
      split; [reflexivity|]. split; [constructor; assumption|]. split.
      { cbn [lval]. rewrite Hv, Z2Nat.id by lia. lia. }
      split; [constructor; [lia|assumption]|].
      intros _. destruct (Z.eq_dec (x / base) 0) as [Ez|Ez].
      * rewrite Ez in Hl. assert (ks = []).
        { destruct fuel; cbn in Hl; injection Hl as <-; inversion HF; reflexivity. }
        subst ks. exists [], (Z.to_nat (x mod base)). split; [reflexivity|].
        rewrite Ez in Hdm. lia.
      * destruct (Hlast Ez) as (ks' & k & -> & Hk). exists (Z.to_nat (x mod base) :: ks'), k. auto.
Qed.

Lemma int2base_ok fuel x : 2 <= base -> 0 <= x -> x <= Z.of_nat fuel -> NoDup digs ->
  exists s, int2base fuel x = Some (Ok s) /\ denotes digs s x /\ canonical digs s.
Proof.
  intros Hb Hx Hf Hn. unfold IntegerBaseModel.int2base. destruct (Z.eqb_spec x 0) as [->|Hx0].
  - destruct digs as [|d l] eqn:Ed; [cbn in Hb; lia|]. rewrite <- Ed in *.
    exists [d]. split; [rewrite Ed; reflexivity|]. split; [|exact I].
    exists [O]. split; [constructor; [rewrite Ed; reflexivity|constructor]|reflexivity].
  - rewrite Z.abs_eq by lia. destruct (digit_loop_ok Hb fuel x Hx Hf) as (ds & ks & -> & HF & Hv & _ & Hlast).
    destruct (Z.ltb_spec x 0) as [E|_]; [lia|].
    exists (rev ds). split; [reflexivity|]. split.
    + apply denotes_lval. exists ks. rewrite rev_involutive. auto.
    + destruct (Hlast Hx0) as (ks' & k & -> & Hk).
      apply Forall2_app_inv_r in HF. destruct HF as (d1 & d2 & HF1 & HF2 & ->).
      inversion HF2 as [|c ? ? ? Hc HF3]; subst. inversion HF3; subst.
      rewrite rev_app_distr. cbn. destruct (rev d1) as [|c' r] eqn:Er; [exact I|].
      intros E0. apply Hk. eapply (proj1 (NoDup_nth_error digs) Hn).
      * apply nth_error_Some; congruence.
      * rewrite Hc. symmetry. exact E0.
Qed.

Lemma int2base_roundtrip fuel x : 2 <= base -> 0 <= x -> x <= Z.of_nat fuel -> NoDup digs ->
  exists s, int2base fuel x = Some (Ok s) /\ base2int s = Ok x.
Proof.
  intros Hb Hx Hf Hn. destruct (int2base_ok fuel x Hb Hx Hf Hn) as (s & H1 & H2 & _).
  exists s. split; [exact H1|]. now apply base2int_denotes.
Qed.

Lemma lval_nonneg ks : 0 <= lval ks.
Proof.
  induction ks as [|k ks IH]; cbn [lval]; [lia|].
  assert (0 <= base) by (unfold IntegerBaseModel.base; lia). nia.
Qed.

Lemma lval_zero ks : 2 <= base -> lval ks = 0 -> Forall (fun k => k = O) ks.
Proof.
  intros Hb. induction ks as [|k ks IH]; intros H; constructor; cbn [lval] in H;
    pose proof (lval_nonneg ks).
  - nia.
  - apply IH. nia.
Qed.

Lemma lval_inj : 2 <= base -> forall ks ks',
  Forall (fun k => Z.of_nat k < base) ks -> Forall (fun k => Z.of_nat k < base) ks' ->
  (ks = [] \/ exists l k, ks = l ++ [k] /\ k <> O) ->
  (ks' = [] \/ exists l k, ks' = l ++ [k] /\ k <> O) ->
  lval ks = lval ks' -> ks = ks'.
Proof.
  intros Hb.
  assert (Hnil : forall ks, (ks = [] \/ exists l k, ks = l ++ [k] /\ k <> O) -> lval ks = 0 -> ks = []).
  { intros ks [->|(l & k & -> & Hk)] H; [reflexivity|]. apply lval_zero in H; [|exact Hb].
    apply Forall_app in H. destruct H as [_ H]. inversion H; subst. congruence. }
  induction ks as [|k ks IH]; intros ks' Hf Hf' Hl Hl' E.
  - symmetry. apply Hnil; [exact Hl'|]. symmetry. exact E.
  - destruct ks' as [|k' ks'].
    + apply Hnil; [exact Hl|exact E].
    + cbn [lval] in E. inversion Hf; inversion Hf'; subst.
      assert (Hk : k = k' /\ lval ks = lval ks').
      { pose proof (lval_nonneg ks). pose proof (lval_nonneg ks').
        assert (Z.of_nat k = Z.of_nat k' /\ lval ks = lval ks'); [|lia].
        assert (lval ks = lval ks') by nia. nia. }
      destruct Hk as [-> Hv].
      assert (Htail : forall ks, (k' :: ks = [] \/ (exists l k, k' :: ks = l ++ [k] /\ k <> O)) ->
               ks = [] \/ (exists l k, ks = l ++ [k] /\ k <> O)).
      { clear. intros ks [H|(l & k & H & Hk)]; [discriminate|]. destruct l as [|a l]; cbn in H.
        - injection H as -> ->. auto.
        - injection H as -> ->. right. eauto. }
      rewrite (IH ks'); auto.
Qed.

Lemma nth_error_bound l k (c : A) : nth_error l k = Some c -> (k < length l)%nat.
Proof. intros H. apply nth_error_Some. congruence. Qed.

Lemma canonical_unique s s' v : 2 <= base -> NoDup digs ->
  denotes digs s v -> denotes digs s' v -> canonical digs s -> canonical digs s' -> s = s'.
Proof.
  intros Hb Hn Hd Hd' Hc Hc'. apply denotes_lval in Hd, Hd'.
  destruct Hd as (ks & HF & ->). destruct Hd' as (ks' & HF' & E).
  assert (Hfun : forall y y' ks, Forall2 R y ks -> Forall2 R y' ks -> y = y').
  { intros y y' l H. revert y'. induction H; intros y' H'; inversion H'; subst; [reflexivity|].
    f_equal; [congruence|auto]. }
  assert (Hlt : forall y ks, Forall2 R y ks -> Forall (fun k => Z.of_nat k < base) ks).
  { intros y l H. induction H as [|? ? ? ? H ?]; constructor; auto.
    apply nth_error_bound in H. unfold IntegerBaseModel.base. lia. }
  (* strip: either the value is 0 (single digit 0) or the last index is not 0 *)
  assert (Hform : forall s ks, Forall2 R (rev s) ks -> canonical digs s ->
            ks = [O] \/ exists l k, ks = l ++ [k] /\ k <> O).
  { intros t l H Hcan. destruct t as [|c t]; [destruct Hcan|]. cbn [rev] in H.
    apply Forall2_app_inv_l in H. destruct H as (l1 & l2 & H1 & H2 & ->).
    inversion H2 as [|? k ? ? Hk H3]; subst. inversion H3; subst.
    destruct (Nat.eq_dec k 0) as [->|Hne]; [|right; eauto].
    destruct t as [|c' t]; [inversion H1; left; reflexivity|]. contradiction. }
  assert (Hks : ks = ks').
  { destruct (Hform _ _ HF Hc) as [->|Hl], (Hform _ _ HF' Hc') as [->|Hl'].
    - reflexivity.
    - exfalso. cbn in E. destruct Hl' as (l & k & -> & Hk).
      assert (H0 : lval (l ++ [k]) = 0) by lia. apply lval_zero in H0; [|exact Hb].
      apply Forall_app in H0. destruct H0 as [_ H0]. inversion H0; congruence.
    - exfalso. cbn in E. destruct Hl as (l & k & -> & Hk).
      assert (H0 : lval (l ++ [k]) = 0) by lia. apply lval_zero in H0; [|exact Hb].
      apply Forall_app in H0. destruct H0 as [_ H0]. inversion H0; congruence.
    - apply lval_inj; eauto. }
  subst ks'. rewrite <- (rev_involutive s), <- (rev_involutive s'). f_equal. eapply Hfun; eauto.
Qed.

Lemma base2int_roundtrip s v fuel : 2 <= base -> NoDup digs ->
  canonical digs s -> base2int s = Ok v -> v <= Z.of_nat fuel -> int2base fuel v = Some (Ok s).
Proof.
  intros Hb Hn Hc Hv Hf. apply base2int_denotes in Hv; [|exact Hn].
  assert (Hv0 : 0 <= v).
  { apply denotes_lval in Hv. destruct Hv as (ks & _ & ->). apply lval_nonneg. }
  destruct (int2base_ok fuel v Hb Hv0 Hf Hn) as (s' & H1 & H2 & H3).
  rewrite H1. do 2 f_equal. eapply canonical_unique; eauto.
Qed.

Lemma int2base_negative fuel x : 2 <= base -> x < 0 -> - x <= Z.of_nat fuel -> NoDup digs ->
  exists s, int2base fuel (- x) = Some (Ok s) /\ int2base fuel x = Some (Ok (minus :: s)) /\
    (~ In minus digs -> base2int (minus :: s) = Err ValueError).
Proof.
  intros Hb Hx Hf Hn. unfold IntegerBaseModel.int2base.
  destruct (Z.eqb_spec x 0); [lia|]. destruct (Z.eqb_spec (- x) 0); [lia|].
  rewrite Z.abs_opp. rewrite Z.abs_neq by lia.
  destruct (digit_loop_ok Hb fuel (- x) ltac:(lia) Hf) as (ds & ks & -> & _).
  destruct (Z.ltb_spec x 0); [|lia]. destruct (Z.ltb_spec (- x) 0); [lia|].
  exists (rev ds). rewrite rev_app_distr. split; [reflexivity|]. split; [reflexivity|].
  intros Hm. apply base2int_err. split; [reflexivity|]. exists minus. cbn. auto.
Qed.

(* one symbol: the loop never ends; no symbol: it raises *)
Lemma int2base_base1 fuel x : base = 1 -> x <> 0 -> int2base fuel x = None.
Proof.
  intros Hb Hx. unfold IntegerBaseModel.int2base. destruct (Z.eqb_spec x 0); [contradiction|].
  assert (Hl : forall f y, 0 < y -> digit_loop f y = None).
  { induction f as [|f IH]; intros y Hy; cbn [IntegerBaseModel.digit_loop];
      (destruct (Z.eqb_spec y 0); [lia|]); [reflexivity|].
    rewrite Hb. cbn [Z.eqb]. rewrite Z.mod_1_r, Z.div_1_r.
    destruct digs as [|d l]; [discriminate|]. cbn [py_get py_pos length]. 
    rewrite IH by exact Hy. unfold py_get. cbn. reflexivity. }
  rewrite Hl by lia. reflexivity.
Qed.

Lemma int2base_base0 fuel x : digs = [] ->
  int2base (S fuel) x = Some (Err (if x =? 0 then IndexError else ZeroDivisionError)).
Proof.
  intros ->. unfold IntegerBaseModel.int2base. destruct (Z.eqb_spec x 0); [reflexivity|].
  cbn [IntegerBaseModel.digit_loop]. destruct (Z.eqb_spec (Z.abs x) 0); [lia|]. reflexivity.
Qed.
End P.
