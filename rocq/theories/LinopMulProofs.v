From Verif Require Import LinopModel LinopSpec LinopProofs.
Local Open Scope Qc_scope.

(* ---- products ---- *)
Lemma Qc_ne_le_lt (p : Qc) : p <> 0 -> p <= 0 -> p < 0.
Proof. intros H1 H2. destruct (Qc_dec p 0) as [[H|H]|H]; [exact H| |contradiction]. exfalso. apply (Qclt_not_le _ _ H H2). Qed.
Ltac qcord := apply Qc_ne_le_lt || (intros; apply Qc_ne_le_lt; assumption).
Lemma lin_lin p q p' q' x : lin p q (lin p' q' x) = lin (p * p') (q' * p + q) x.
Proof.
  unfold lin, n_mul, n_add, inf_sign. destruct x as [x| | |]; cbn.
  - f_equal. ring.
  - destruct (Qc_eqb p' 0) eqn:E'; qc_bool.
    + subst p'. assert (p * 0 = 0) as -> by ring. reflexivity.
    + destruct (Qc_eqb p 0) eqn:E; qc_bool.
      { subst p. assert (0 * p' = 0) as -> by ring. destruct (Qc_ltb 0 p'); reflexivity. }
      assert (Qc_eqb (p * p') 0 = false) as ->.
      { apply Qc_eqb_false. intros H. apply Qcmult_integral in H. tauto. }
      destruct (Qc_ltb 0 p') eqn:L', (Qc_ltb 0 p) eqn:L; cbn; destruct (Qc_ltb 0 (p * p')) eqn:L2; cbn;
        try reflexivity; exfalso; qc_bool; try (assert (p < 0) by (revert E L; qcord)); try (assert (p' < 0) by (revert E' L'; qcord)); qcnra.
  - destruct (Qc_eqb p' 0) eqn:E'; qc_bool.
    + subst p'. assert (p * 0 = 0) as -> by ring. reflexivity.
    + destruct (Qc_eqb p 0) eqn:E; qc_bool.
      { subst p. assert (0 * p' = 0) as -> by ring. destruct (Qc_ltb 0 p'); reflexivity. }
      assert (Qc_eqb (p * p') 0 = false) as ->.
      { apply Qc_eqb_false. intros H. apply Qcmult_integral in H. tauto. }
      destruct (Qc_ltb 0 p') eqn:L', (Qc_ltb 0 p) eqn:L; cbn; destruct (Qc_ltb 0 (p * p')) eqn:L2; cbn;
        try reflexivity; exfalso; qc_bool; try (assert (p < 0) by (revert E L; qcord)); try (assert (p' < 0) by (revert E' L'; qcord)); qcnra.
  - reflexivity.
Qed.

Lemma Fin_inj p q : Fin p = Fin q -> p = q.
Proof. congruence. Qed.
Lemma Qc_prod_ne (p q : Qc) : p <> 0 -> q <> 0 -> p * q <> 0.
Proof. intros H1 H2 H. apply Qcmult_integral in H. tauto. Qed.

Lemma eval_clip_linear (cl : option num -> option num -> kind) m b a c c1 c2 x :
  (cl = Clip \/ cl = NaNClip) -> finite_kind (Linear m b) -> nonzero_kind (Linear m b) ->
  commute m b a c = (c1, c2) ->
  eval1 (cl a c) (eval1 (Linear m b) x) = eval1 (Linear m b) (eval1 (cl c1 c2) x).
Proof.
  intros Hcl (p & q & -> & ->) Hnz Hc. cbn in Hnz.
  assert (p <> 0) as Hp by (intros ->; now apply Hnz).
  destruct Hcl as [-> | ->]; [apply (commute_clip p q Hp a c c1 c2 x Hc)|apply (commute_nan p q Hp a c c1 c2 x Hc)].
Qed.

Definition compat (k : kind) (r : oper) : Prop := is_clip k = false \/ nonzero_linear r.

Lemma mul1_eval : forall r k x, ~ (exists r', r = Identity :: r' /\ r' <> []) -> ~ In Identity (tl r) ->
  finite_kind k -> finite_linear r -> compat k r ->
  eval (mul1 k r) x = eval1 k (eval r x).
Proof.
  induction r as [|c r IH]; intros k x Hid Htl Hk Hr Hc.
  - destruct k; reflexivity.
  - inversion Hr as [|? ? Hcf Hrf]; subst.
    assert (~ (exists r', r = Identity :: r' /\ r' <> [])) as Hid'.
    { intros (r' & -> & _). apply Htl. now left. }
    assert (~ In Identity (tl r)) as Htl'.
    { intros H. apply Htl. cbn. destruct r; [destruct H|now right]. }
    assert (c = Identity -> r = []) as Hci.
    { intros ->. destruct r; [reflexivity|]. exfalso. apply Hid. eexists; split; [reflexivity|discriminate]. }
    destruct k as [|n i f g|a b|a b|m b].
    + reflexivity.
    + destruct c; try reflexivity. rewrite (Hci eq_refl). reflexivity.
    + destruct Hc as [Hc|Hnz]; [discriminate|]. inversion Hnz as [|? ? Hcn Hrn]; subst.
      destruct c as [|n i f g|c d|c d|m q]; try reflexivity.
      * rewrite (Hci eq_refl). reflexivity.
      * cbn [mul1]. destruct (merge_limits a b c d) as [[c1 c2]|] eqn:E; [|reflexivity].
        cbn [eval]. symmetry. apply (merge_clip a b c d); assumption.
      * cbn [mul1]. destruct (commute m q a b) as [c1 c2] eqn:E. cbn [eval].
        rewrite IH by (try assumption; try exact I; now right).
        symmetry. now apply (eval_clip_linear Clip); [left| | |].
    + destruct Hc as [Hc|Hnz]; [discriminate|]. inversion Hnz as [|? ? Hcn Hrn]; subst.
      destruct c as [|n i f g|c d|c d|m q]; try reflexivity.
      * rewrite (Hci eq_refl). reflexivity.
      * cbn [mul1]. destruct (merge_limits a b c d) as [[c1 c2]|] eqn:E; [|reflexivity].
        cbn [eval]. symmetry. apply (merge_nan a b c d); assumption.
      * cbn [mul1]. destruct (commute m q a b) as [c1 c2] eqn:E. cbn [eval].
        rewrite IH by (try assumption; try exact I; now right).
        symmetry. now apply (eval_clip_linear NaNClip); [right| | |].
    + destruct c as [|n i f g|c d|c d|m' q']; try reflexivity.
      * rewrite (Hci eq_refl). reflexivity.
      * destruct Hk as (p & q & -> & ->). destruct Hcf as (p' & q'' & -> & ->).
        cbn [mul1 eval eval1]. symmetry. apply (lin_lin p q p' q'').
Qed.

Lemma mul1_Forall (P : kind -> Prop) : P Identity \/ True ->
  (forall a b m q c1 c2, P (Clip a b) -> P (Linear m q) -> commute m q a b = (c1, c2) -> P (Clip c1 c2)) ->
  (forall a b m q c1 c2, P (NaNClip a b) -> P (Linear m q) -> commute m q a b = (c1, c2) -> P (NaNClip c1 c2)) ->
  (forall a b c d c1 c2, P (Clip a b) -> P (Clip c d) -> merge_limits a b c d = Some (c1, c2) -> P (Clip c1 c2)) ->
  (forall a b c d c1 c2, P (NaNClip a b) -> P (NaNClip c d) -> merge_limits a b c d = Some (c1, c2) -> P (NaNClip c1 c2)) ->
  (forall m q m' q', P (Linear m q) -> P (Linear m' q') -> P (Linear (n_mul m m') (n_add (n_mul q' m) q))) ->
  forall r k, P k -> Forall P r -> Forall P (mul1 k r).
Proof.
  intros _ H1 H2 H3 H4 H5. induction r as [|c r IH]; intros k Hk Hr.
  - destruct k; repeat constructor; assumption.
  - inversion Hr as [|? ? Hc Hr']; subst. destruct k as [|n i f g|a b|a b|m b]; cbn [mul1].
    + assumption.
    + destruct c; repeat constructor; assumption.
    + destruct c as [|n i f g|c d|c d|m q]; try (repeat constructor; assumption).
      * destruct (merge_limits a b c d) as [[c1 c2]|] eqn:E; repeat constructor; try assumption. now apply (H3 a b c d).
      * destruct (commute m q a b) as [c1 c2] eqn:E. constructor; [assumption|]. apply IH; [|assumption]. now apply (H1 a b m q).
    + destruct c as [|n i f g|c d|c d|m q]; try (repeat constructor; assumption).
      * destruct (merge_limits a b c d) as [[c1 c2]|] eqn:E; repeat constructor; try assumption. now apply (H4 a b c d).
      * destruct (commute m q a b) as [c1 c2] eqn:E. constructor; [assumption|]. apply IH; [|assumption]. now apply (H2 a b m q).
    + destruct c as [|n i f g|c d|c d|m' q]; try (repeat constructor; assumption).
      constructor; [now apply H5|assumption].
Qed.

Lemma mul_Forall (P : kind -> Prop) :
  (forall r k, P k -> Forall P r -> Forall P (mul1 k r)) ->
  forall l r, Forall P l -> Forall P r -> Forall P (mul l r).
Proof.
  intros H1. induction l as [|k l IH]; intros r Hl Hr; [assumption|].
  inversion Hl as [|? ? Hk Hl']; subst. destruct l as [|k2 l].
  - cbn. now apply H1.
  - change (mul (k :: k2 :: l) r) with
      (match r with [] | Identity :: _ => k :: k2 :: l | _ => k :: mul (k2 :: l) r end).
    destruct r as [|[] r]; try assumption; constructor; try assumption; now apply IH.
Qed.

Lemma mul_finite l r : finite_linear l -> finite_linear r -> finite_linear (mul l r).
Proof.
  apply mul_Forall. apply mul1_Forall; cbn; auto.
  intros m q m' q' (p1 & q1 & -> & ->) (p2 & q2 & -> & ->). cbn. eauto.
Qed.
Lemma mul_no_clip l r : no_clip l -> no_clip r -> no_clip (mul l r).
Proof. apply mul_Forall. apply mul1_Forall; cbn; auto; discriminate. Qed.

Definition good_kind (k : kind) := finite_kind k /\ nonzero_kind k.
Lemma mul_good l r : Forall good_kind l -> Forall good_kind r -> Forall good_kind (mul l r).
Proof.
  apply mul_Forall. apply mul1_Forall; cbn; auto; try (intros; split; exact I).
  intros m q m' q' ((p1 & q1 & -> & ->) & H1) ((p2 & q2 & -> & ->) & H2). cbn in *. split; cbn; [eauto|].
  intros H. apply Fin_inj in H. revert H. apply Qc_prod_ne; intros ->; congruence.
Qed.
Lemma good_split o : Forall good_kind o <-> finite_linear o /\ nonzero_linear o.
Proof.
  unfold good_kind, finite_linear, nonzero_linear. split.
  - intros H. split; eapply Forall_impl; try exact H; cbn; tauto.
  - intros [H1 H2]. induction o; constructor; inversion H1; inversion H2; subst; auto.
Qed.

Lemma mul1_no_id r k : k <> Identity -> ~ In Identity r -> ~ In Identity (mul1 k r).
Proof.
  intros Hk Hr H. assert (Forall (fun k => k <> Identity) (mul1 k r)) as HF.
  { apply mul1_Forall; auto; try (intros; discriminate).
    clear -Hr. induction r; constructor; [|apply IHr]; intros HH; apply Hr; [left|right]; auto. }
  rewrite Forall_forall in HF. now apply (HF _ H).
Qed.
Lemma mul1_nonempty r k : mul1 k r <> [].
Proof.
  destruct k, r as [|[] r]; cbn; try discriminate;
    try (destruct (commute _ _ _ _); discriminate);
    destruct (merge_limits _ _ _ _) as [[]|]; discriminate.
Qed.
Lemma mul_wf l r : wf l -> wf r -> wf (mul l r).
Proof.
  intros [->|[Hl1 Hl2]] Hr.
  - cbn. destruct Hr as [->|[Hr1 Hr2]]; [now left|]. destruct r; [congruence|]. right. split; [discriminate|assumption].
  - right. destruct Hr as [->|[Hr1 Hr2]].
    + assert (mul l [Identity] = l) as ->; [|split; assumption].
      destruct l as [|k [|k2 l]]; [congruence| |reflexivity].
      destruct k; try reflexivity.
    + revert Hl1 Hl2. induction l as [|k l IH]; intros Hl1 Hl2; [congruence|].
      assert (k <> Identity) as Hk by (intros ->; apply Hl2; now left).
      destruct l as [|k2 l].
      * cbn. split; [apply mul1_nonempty|now apply mul1_no_id].
      * change (mul (k :: k2 :: l) r) with
          (match r with [] | Identity :: _ => k :: k2 :: l | _ => k :: mul (k2 :: l) r end).
        destruct IH as [IH1 IH2]; [discriminate|intros H; apply Hl2; now right|].
        destruct r as [|c r]; [congruence|].
        assert (~ In Identity (k :: mul (k2 :: l) (c :: r))) as HN by (intros [H|H]; [now apply Hk|now apply IH2]).
        destruct c; split; try discriminate; assumption.
Qed.

Lemma wf_side r : wf r -> ~ (exists r', r = Identity :: r' /\ r' <> []) /\ ~ In Identity (tl r).
Proof.
  intros [->|[H1 H2]].
  - split; [intros (r' & H & H2); injection H as <-; congruence|intros []].
  - split; [intros (r' & -> & _); apply H2; now left|]. destruct r; [auto|]. intros H. apply H2. now right.
Qed.

Lemma mul_eval l r x : wf r -> finite_linear l -> finite_linear r -> no_clip l \/ nonzero_linear r ->
  eval (mul l r) x = eval l (eval r x).
Proof.
  intros Hr Fl Fr Hc. destruct (wf_side _ Hr) as [Hs1 Hs2].
  revert Fl Hc. induction l as [|k l IH]; intros Fl Hc; [reflexivity|].
  inversion Fl as [|? ? Fk Fl']; subst.
  assert (compat k r) as Hk.
  { destruct Hc as [Hc|Hc]; [|now right]. inversion Hc; subst. now left. }
  assert (no_clip l \/ nonzero_linear r) as Hc'.
  { destruct Hc as [Hc|Hc]; [|now right]. inversion Hc; subst. now left. }
  destruct l as [|k2 l].
  - cbn [mul]. now rewrite mul1_eval.
  - change (mul (k :: k2 :: l) r) with
      (match r with [] | Identity :: _ => k :: k2 :: l | _ => k :: mul (k2 :: l) r end).
    destruct r as [|c r]; [reflexivity|].
    assert (eval (k :: mul (k2 :: l) (c :: r)) x = eval (k :: k2 :: l) (eval (c :: r) x)) as HH.
    { cbn [eval]. now rewrite IH. }
    destruct c; try exact HH.
    destruct Hr as [Hr|[_ Hr]]; [injection Hr as ->; reflexivity|exfalso; apply Hr; now left].
Qed.

Lemma mul_assoc a b c x : wf b -> wf c ->
  finite_linear a -> finite_linear b -> finite_linear c ->
  (no_clip a /\ no_clip b) \/ (nonzero_linear b /\ nonzero_linear c) ->
  eval (mul (mul a b) c) x = eval (mul a (mul b c)) x.
Proof.
  intros Wb Wc Fa Fb Fc Hc.
  rewrite mul_eval; [|assumption|now apply mul_finite|assumption|].
  2:{ destruct Hc as [[H1 H2]|[H1 H2]]; [left; now apply mul_no_clip|now right]. }
  rewrite mul_eval; [|assumption|assumption|assumption|tauto].
  rewrite (mul_eval a (mul b c)); [|now apply mul_wf|assumption|now apply mul_finite|].
  2:{ destruct Hc as [[H1 H2]|[H1 H2]]; [now left|right].
      assert (Forall good_kind (mul b c)) as HG by (apply mul_good; apply good_split; tauto).
      now apply good_split in HG. }
  f_equal. symmetry. apply mul_eval; tauto.
Qed.

Lemma mul_id_l r : wf r -> mul [Identity] r = r.
Proof. intros H. destruct r as [|c r]; [destruct H as [H|[H _]]; [discriminate|congruence]|reflexivity]. Qed.
Lemma mul_id_r l : wf l -> mul l [Identity] = l.
Proof. intros H. destruct l as [|k [|k2 l]]; [destruct H as [H|[H _]]; [discriminate|congruence]| |reflexivity]. destruct k; reflexivity. Qed.

(* ---- inverses ---- *)
Lemma inverse1_reversible k : reversible k -> reversible (inverse1 k).
Proof.
  destruct k; cbn; auto; [tauto|].
  intros (p & q & -> & -> & Hp). exists (1 / p), (- q / p). cbn.
  assert (Qc_eqb p 0 = false) as -> by now apply Qc_eqb_false.
  repeat split. intros H. assert (1 = 0) as H1; [|discriminate H1].
  transitivity (1 / p * p); [field; exact Hp|]. rewrite H. ring.
Qed.
Lemma reversible_good k : reversible k -> good_kind k.
Proof.
  destruct k; cbn; try (split; exact I). intros (p & q & -> & -> & Hp). split; cbn; [eauto|]. congruence.
Qed.
Lemma mul_reversible l r : Forall reversible l -> Forall reversible r -> Forall reversible (mul l r).
Proof.
  apply mul_Forall. apply mul1_Forall; cbn; auto.
  intros m q m' q' (p1 & q1 & -> & -> & H1) (p2 & q2 & -> & -> & H2). cbn. eexists _, _. repeat split. now apply Qc_prod_ne.
Qed.
Lemma inverse_cons k o : inverse (k :: o) = mul (inverse o) [inverse1 k].
Proof. destruct o; reflexivity. Qed.
Lemma inverse_reversible o : Forall reversible o -> Forall reversible (inverse o).
Proof.
  induction o as [|k o IH]; intros H; [constructor|]. inversion H; subst. rewrite inverse_cons.
  apply mul_reversible; [now apply IH|]. constructor; [now apply inverse1_reversible|constructor].
Qed.
Lemma inverse1_wf k : wf [inverse1 k].
Proof. destruct k; [now left|right..]; (split; [discriminate|intros [H|[]]; discriminate]). Qed.
Lemma inverse_wf o : wf o -> wf (inverse o).
Proof.
  intros H. assert (o <> []) as Hn by (destruct H as [->|[? _]]; [discriminate|assumption]). clear H.
  induction o as [|k o IH]; [congruence|]. rewrite inverse_cons. destruct o as [|k2 o].
  - apply inverse1_wf.
  - apply mul_wf; [apply IH; discriminate|apply inverse1_wf].
Qed.
Lemma reversible_all_good o : Forall reversible o -> finite_linear o /\ nonzero_linear o.
Proof. intros H. apply good_split. eapply Forall_impl; [exact reversible_good|exact H]. Qed.

Lemma inverse_eval k o y : Forall reversible (k :: o) ->
  eval (inverse (k :: o)) y = eval (inverse o) (eval1 (inverse1 k) y).
Proof.
  intros H. inversion H; subst. rewrite inverse_cons.
  assert (Forall reversible [inverse1 k]) as Hk by (constructor; [now apply inverse1_reversible|constructor]).
  destruct (reversible_all_good _ Hk). destruct (reversible_all_good _ (inverse_reversible _ H3)).
  rewrite mul_eval; try assumption; [reflexivity|apply inverse1_wf|now right].
Qed.

Lemma within_lo a b x : within a b x -> n_ltb x (lo a) = false /\ n_ltb (hi b) x = false.
Proof.
  intros [H1 H2]. split.
  - unfold lo. destruct a as [c|]; [|now destruct x]. destruct c as [c| | |]; try (now destruct x); cbn [valid_limit is_nan negb];
      assert (H := H1 _ eq_refl ltac:(discriminate)); rewrite n_leb_alt in H; repeat (apply andb_true_iff in H as [H ?]); cbn;
      now apply negb_true_iff.
  - unfold hi. destruct b as [c|]; [|now destruct x]. destruct c as [c| | |]; try (now destruct x); cbn [valid_limit is_nan negb];
      assert (H := H2 _ eq_refl ltac:(discriminate)); rewrite n_leb_alt in H; repeat (apply andb_true_iff in H as [H ?]); cbn;
      now apply negb_true_iff.
Qed.
Lemma clip_within a b x : within a b x -> eval1 (Clip a b) x = x.
Proof.
  intros H. destruct (is_nan x) eqn:Hx. { destruct x; try discriminate. apply clip_nan. }
  pose proof (within_lo _ _ _ H) as [H1 H2]. cbn [eval1]. rewrite valids_lo, below_lo, above_hi, H1, H2.
  assert (n_ltb (hi b) (lo a) = false) as ->; [|reflexivity].
  eapply le_le_trans; eassumption.
Qed.
Lemma nanclip_within a b x : within a b x -> eval1 (NaNClip a b) x = x.
Proof.
  intros H. pose proof (within_lo _ _ _ H) as [H1 H2]. cbn [eval1]. now rewrite below_lo_nan, above_hi_nan, H1, H2.
Qed.

Lemma inverse1_left k x : reversible k ->
  match k with Clip a b | NaNClip a b => within a b x | _ => True end ->
  eval1 (inverse1 k) (eval1 k x) = x.
Proof.
  destruct k as [|n i f g|a b|a b|m b]; intros Hk Hx; try reflexivity.
  - apply Hk.
  - rewrite clip_within by assumption. now apply nanclip_within.
  - rewrite nanclip_within by assumption. now apply nanclip_within.
  - destruct Hk as (p & q & -> & -> & Hp). cbn.
    assert (Qc_eqb p 0 = false) as -> by now apply Qc_eqb_false.
    change (lin (1 / p) (- q / p) (lin p q x) = x). rewrite lin_lin.
    replace (1 / p * p) with 1 by (field; exact Hp). replace (q * (1 / p) + - q / p) with 0 by (field; exact Hp).
    destruct x; cbn; try reflexivity. f_equal. ring.
Qed.
Lemma inverse_left o x : Forall reversible o -> unclipped o x -> eval (inverse o) (eval o x) = x.
Proof.
  induction o as [|k o IH]; intros H Hx; [reflexivity|].
  inversion H; subst. destruct Hx as [Hx1 Hx2].
  rewrite inverse_eval by assumption. cbn [eval].
  rewrite inverse1_left by assumption. now apply IH.
Qed.
Lemma inverse1_invertible k : invertible k -> invertible (inverse1 k).
Proof. destruct k; cbn; auto; [tauto| ]. apply (inverse1_reversible (Linear m b)). Qed.
Lemma inverse1_right k x : invertible k -> eval1 k (eval1 (inverse1 k) x) = x.
Proof.
  destruct k as [|n i f g|a b|a b|m b]; intros Hk; try reflexivity; try destruct Hk.
  - auto.
  - destruct H as (q & -> & -> & Hp). cbn.
    assert (Qc_eqb x0 0 = false) as -> by now apply Qc_eqb_false.
    change (lin x0 q (lin (1 / x0) (- q / x0) x) = x). rewrite lin_lin.
    replace (x0 * (1 / x0)) with 1 by (field; exact Hp). replace (- q / x0 * x0 + q) with 0 by (field; exact Hp).
    destruct x; cbn; try reflexivity. f_equal. ring.
Qed.
Lemma invertible_reversible k : invertible k -> reversible k.
Proof. destruct k; cbn; tauto. Qed.
Lemma inverse_right o x : Forall invertible o -> eval o (eval (inverse o) x) = x.
Proof.
  revert x. induction o as [|k o IH]; intros x H; [reflexivity|].
  inversion H; subst. rewrite inverse_eval.
  2:{ eapply Forall_impl; [exact invertible_reversible|assumption]. }
  cbn [eval]. rewrite IH by assumption. now apply inverse1_right.
Qed.
Lemma invertible_unclipped o x : Forall invertible o -> unclipped o x.
Proof. induction o as [|k o IH]; intros H; cbn; [auto|]. inversion H; subst. split; [auto|]. destruct k; auto; destruct H2. Qed.
Lemma inverse_both o x : Forall invertible o -> eval (inverse o) (eval o x) = x /\ eval o (eval (inverse o) x) = x.
Proof.
  intros H. split; [|now apply inverse_right]. apply inverse_left; [|now apply invertible_unclipped].
  eapply Forall_impl; [exact invertible_reversible|exact H].
Qed.

(* ---- powers ---- *)
Lemma iter_shift {A} n (f : A -> A) x : iter n f (f x) = f (iter n f x).
Proof. induction n; cbn; congruence. Qed.
Lemma times_eval n p q : forall ret, finite_linear ret -> no_clip ret -> forall x,
  eval (times n ret (Linear (Fin p) (Fin q))) x = eval ret (iter n (eval [Linear (Fin p) (Fin q)]) x).
Proof.
  induction n as [|n IH]; intros ret F C x; [reflexivity|].
  assert (finite_linear [Linear (Fin p) (Fin q)]) as Fk by (constructor; [cbn; eauto|constructor]).
  assert (no_clip [Linear (Fin p) (Fin q)]) as Ck by (constructor; [reflexivity|constructor]).
  cbn [times iter]. rewrite IH by (now apply mul_finite || now apply mul_no_clip).
  rewrite mul_eval; try assumption; [|right; split; [discriminate|intros [H|[]]; discriminate]|now left].
  reflexivity.
Qed.
Lemma pow_eval m b o p : finite_kind (Linear m b) -> (0 < p)%Z ->
  exists r, pow (Linear m b :: o) p = Ok r /\ forall x, eval r x = iter (Z.to_nat p) (eval [Linear m b]) x.
Proof.
  intros (u & v & -> & ->) Hp. unfold pow. destruct (Z.ltb_spec p 0); [lia|]. destruct (Z.eqb_spec p 0); [lia|].
  eexists. split; [reflexivity|]. intros x.
  rewrite times_eval by (constructor; [cbn; eauto|constructor]).
  destruct (Z.to_nat p) as [|j] eqn:E; [lia|]. replace (S j - 1)%nat with j by lia. reflexivity.
Qed.

(* ---- equality ---- *)
Lemma n_eqb_eq a b : n_eqb a b = true -> a = b.
Proof. destruct a, b; cbn; try discriminate; try reflexivity. intros H. qc_bool. congruence. Qed.
Lemma opt_n_eqb_eq a b : opt_n_eqb a b = true -> a = b.
Proof. destruct a, b; cbn; try discriminate; try reflexivity. intros H. apply n_eqb_eq in H. congruence. Qed.
Lemma op_eqb_single k k' : not_lambda k -> op_eqb [k] [k'] = true -> k = k'.
Proof.
  intros Hn. destruct k, k'; cbn; try discriminate; try reflexivity; try (now destruct Hn); intros H; apply andb_true_iff in H as [H1 H2];
  try (apply opt_n_eqb_eq in H1, H2); try (apply n_eqb_eq in H1, H2); congruence.
Qed.

Ltac each := repeat (apply Forall_cons; [cbn; try exact I; try discriminate; try (vm_compute; reflexivity); try (eexists _, _; split; reflexivity)|]);
  try apply Forall_nil.
Ltac wellformed := right; split; [discriminate|cbn; intuition discriminate].
(* ---- statements for the property file ---- *)
Lemma pow_negative m b o p : (p < 0)%Z -> pow (Linear m b :: o) p = Err NotImplementedError.
Proof. intros H. cbn. destruct (Z.ltb_spec p 0); [reflexivity|lia]. Qed.
Lemma power_zero :
  exists m b x, finite_kind (Linear m b) /\ nonzero_kind (Linear m b) /\
    match pow [Linear m b] 0 with Ok r => eval r x <> x | Err _ => False end.
Proof.
  exists (Fin 1), (Fin 0), (Fin 0). split; [cbn; eauto|]. split; [discriminate|]. vm_compute. discriminate.
Qed.
Lemma power_product :
  exists o x, wf o /\ finite_linear o /\
    match pow o 2 with Ok r => eval r x <> eval o (eval o x) | Err _ => False end.
Proof.
  exists [Linear (Fin 1) (Fin 0); Clip None (Some (Fin 0))], (Fin 1).
  split; [right; split; [discriminate|cbn; intuition discriminate]|].
  split; [repeat constructor; cbn; eauto|]. vm_compute. discriminate.
Qed.
Lemma merge_both a b c d c1 c2 x : merge_limits a b c d = Some (c1, c2) ->
  eval [Clip c1 c2] x = eval [Clip a b; Clip c d] x /\
  eval [NaNClip c1 c2] x = eval [NaNClip a b; NaNClip c d] x.
Proof.
  intros H. cbn [eval]. split; symmetry; [now apply merge_clip|now apply merge_nan].
Qed.
Lemma exchange_both a b m q c1 c2 x :
  finite_kind (Linear m q) -> nonzero_kind (Linear m q) -> commute m q a b = (c1, c2) ->
  eval [Linear m q; Clip c1 c2] x = eval [Clip a b; Linear m q] x /\
  eval [Linear m q; NaNClip c1 c2] x = eval [NaNClip a b; Linear m q] x.
Proof.
  intros H1 H2 H. cbn [eval]. split; symmetry.
  - now apply (eval_clip_linear Clip); [left| | |].
  - now apply (eval_clip_linear NaNClip); [right| | |].
Qed.
Lemma zero_slope :
  exists a b m q x, finite_kind (Linear m q) /\
    eval (mul [Clip a b] [Linear m q]) x <> eval [Clip a b; Linear m q] x.
Proof.
  exists (Some (Fin 1)), None, (Fin 0), (Fin 0), (Fin 0). split; [cbn; eauto|]. vm_compute. discriminate.
Qed.
Lemma eq_product : exists l r x, wf l /\ wf r /\ op_eqb l r = true /\ eval l x <> eval r x.
Proof.
  exists [Linear (Fin 1) (Fin 0)], [Linear (Fin 1) (Fin 0); Clip None (Some (Fin 0))], (Fin 1).
  split; [right; split; [discriminate|cbn; intuition discriminate]|].
  split; [right; split; [discriminate|cbn; intuition discriminate]|].
  split; [reflexivity|]. vm_compute. discriminate.
Qed.
Lemma eq_irreflexive : exists o, wf o /\ op_eqb o o = false.
Proof.
  exists [Clip (Some NaN) None]. split; [right; split; [discriminate|cbn; intuition discriminate]|reflexivity].
Qed.
