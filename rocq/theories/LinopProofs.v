From Verif Require Import LinopModel LinopSpec.
Local Open Scope Qc_scope.

Ltac qcb := repeat match goal with
  | |- context [Qc_ltb ?a ?b] => let E := fresh "E" in destruct (Qc_ltb a b) eqn:E
  | |- context [Qc_eqb ?a ?b] => let E := fresh "E" in destruct (Qc_eqb a b) eqn:E
  | |- context [Qc_leb ?a ?b] => let E := fresh "E" in destruct (Qc_leb a b) eqn:E
  end; qc_bool.

Definition lin (p q : Qc) (x : num) : num := n_add (n_mul (Fin p) x) (Fin q).

Lemma Qcmult_pos_lt p a b : 0 < p -> (p * a < p * b <-> a < b).
Proof.
  intros Hp. split; intros H.
  - apply Qcnot_le_lt. intros Hle. assert (p * b <= p * a) as H2 by qcnra. apply (Qclt_not_le _ _ H H2).
  - qcnra.
Qed.

Lemma lin_lt_pos p q x y : 0 < p -> n_ltb (lin p q x) (lin p q y) = n_ltb x y.
Proof.
  intros Hp. unfold lin, n_mul, n_add, inf_sign, n_opp.
  assert (Qc_eqb p 0 = false) as -> by (apply Qc_eqb_false; intros ->; revert Hp; qclra).
  assert (Qc_ltb 0 p = true) as -> by now apply Qc_ltb_lt.
  destruct x, y; cbn; try reflexivity. qcb; try reflexivity; exfalso; qcnra.
Qed.
Lemma lin_lt_neg p q x y : p < 0 -> n_ltb (lin p q x) (lin p q y) = n_ltb y x.
Proof.
  intros Hp. unfold lin, n_mul, n_add, inf_sign, n_opp.
  assert (Qc_eqb p 0 = false) as -> by (apply Qc_eqb_false; intros ->; revert Hp; qclra).
  assert (Qc_ltb 0 p = false) as -> by (apply Qc_ltb_ge; revert Hp; qclra).
  destruct x, y; cbn; try reflexivity. qcb; try reflexivity; exfalso; qcnra.
Qed.
Lemma lin_back p q c : p <> 0 -> lin p q (n_div (n_sub c (Fin q)) (Fin p)) = c.
Proof.
  intros Hp. unfold lin, n_sub, n_div, n_mul, n_add, inf_sign, n_opp.
  assert (Qc_eqb p 0 = false) as E by now apply Qc_eqb_false.
  destruct c as [c| | |]; rewrite ?E; cbn.
  - f_equal. field. exact Hp.
  - destruct (Qc_ltb 0 p) eqn:E2; rewrite ?E, ?E2; reflexivity.
  - destruct (Qc_ltb 0 p) eqn:E2; rewrite ?E, ?E2; reflexivity.
  - reflexivity.
Qed.
Lemma lin_forth p q c : p <> 0 -> n_div (n_sub (lin p q c) (Fin q)) (Fin p) = c.
Proof.
  intros Hp. unfold lin, n_sub, n_div, n_mul, n_add, inf_sign, n_opp.
  assert (Qc_eqb p 0 = false) as E by now apply Qc_eqb_false.
  destruct c as [c| | |]; rewrite ?E; cbn; rewrite ?E.
  - f_equal. field. exact Hp.
  - destruct (Qc_ltb 0 p) eqn:E2; cbn; rewrite ?E, ?E2; reflexivity.
  - destruct (Qc_ltb 0 p) eqn:E2; cbn; rewrite ?E, ?E2; reflexivity.
  - reflexivity.
Qed.
Lemma lin_nan p q c : p <> 0 -> is_nan (lin p q c) = is_nan c.
Proof.
  intros Hp. unfold lin, n_mul, n_add, inf_sign, n_opp.
  assert (Qc_eqb p 0 = false) as E by now apply Qc_eqb_false.
  destruct c; rewrite ?E; try reflexivity; destruct (Qc_ltb 0 p); reflexivity.
Qed.

(* order on numbers other than NaN *)
Lemma n_ltb_irrefl a : n_ltb a a = false.
Proof. destruct a; try reflexivity. cbn. apply Qc_ltb_ge. qclra. Qed.
Lemma n_ltb_trans a b c : n_ltb a b = true -> n_ltb b c = true -> n_ltb a c = true.
Proof.
  destruct a, b, c; cbn; try discriminate; auto. intros H1 H2. qc_bool. apply Qc_ltb_lt. qclra.
Qed.
Lemma n_ltb_total a b : is_nan a = false -> is_nan b = false -> n_ltb a b = false -> n_ltb b a = false -> a = b.
Proof.
  destruct a, b; cbn; try discriminate; auto. intros _ _ H1 H2. qc_bool. f_equal. qclra.
Qed.
Lemma n_ltb_nan a b : n_ltb a b = true -> is_nan a = false /\ is_nan b = false.
Proof. destruct a, b; cbn; try discriminate; auto. Qed.
Lemma n_leb_alt a b : n_leb a b = negb (is_nan a) && negb (is_nan b) && negb (n_ltb b a).
Proof. destruct a, b; reflexivity. Qed.

(* decide by order: elements that are not NaN *)
Ltac trans_close :=
  repeat match goal with
  | H1 : n_ltb ?a ?b = true, H2 : n_ltb ?b ?c = true |- _ =>
      lazymatch goal with
      | _ : n_ltb a c = true |- _ => fail
      | _ => pose proof (n_ltb_trans a b c H1 H2)
      end
  end.
Ltac ord :=
  subst; trans_close;
  try congruence;
  match goal with
  | H : n_ltb ?a ?a = true |- _ => rewrite n_ltb_irrefl in H; discriminate
  end.

(* a <= b as a disjunction *)
Lemma n_ltb_false a b : is_nan a = false -> is_nan b = false -> n_ltb a b = false -> b = a \/ n_ltb b a = true.
Proof.
  intros Ha Hb H. destruct (n_ltb b a) eqn:E; [now right|left]. symmetry. now apply n_ltb_total.
Qed.

(* ---- commuting with a linear operator ---- *)
Section Commute.
Context (p q : Qc).
Hypothesis Hp : p <> 0.
Let f c := if valid_limit c then option_map (fun c => n_div (n_sub c (Fin q)) (Fin p)) c else None.

Lemma f_valid c : valid_limit (f c) = valid_limit c.
Proof.
  unfold f. destruct c as [c|]; [|reflexivity]. destruct (is_nan c) eqn:E; cbn; rewrite E; [reflexivity|]. cbn.
  rewrite <- (lin_nan p q) by assumption. rewrite lin_back by assumption. now rewrite E.
Qed.
Lemma f_some c : valid_limit c = true -> exists d, f c = Some d /\ c = Some (lin p q d) /\ is_nan d = false.
Proof.
  intros H. destruct c as [c|]; [|discriminate]. unfold f. rewrite H. cbn. eexists. split; [reflexivity|].
  rewrite lin_back by assumption. split; [reflexivity|].
  rewrite <- (lin_nan p q), lin_back by assumption. cbn in H. now apply negb_true_iff in H.
Qed.
Lemma f_none c : valid_limit c = false -> f c = None.
Proof. intros H. unfold f. now rewrite H. Qed.

Lemma below_id c v x : valid_limit c = false -> set_below c v x = x.
Proof. destruct c as [c|]; [|reflexivity]. cbn. intros ->. reflexivity. Qed.
Lemma above_id c v x : valid_limit c = false -> set_above c v x = x.
Proof. destruct c as [c|]; [|reflexivity]. cbn. intros ->. reflexivity. Qed.
Lemma below_val c v x : is_nan c = false -> set_below (Some c) v x = if n_ltb x c then v else x.
Proof. intros H. cbn. now rewrite H. Qed.
Lemma above_val c v x : is_nan c = false -> set_above (Some c) v x = if n_ltb c x then v else x.
Proof. intros H. cbn. now rewrite H. Qed.

Lemma lin_NaN : lin p q NaN = NaN. Proof. reflexivity. Qed.

(* setting below/above through the linear map *)
Lemma below_lin c v w x : 0 < p -> (valid_limit c = true -> v = lin p q w) ->
  set_below c v (lin p q x) = lin p q (set_below (f c) w x).
Proof.
  intros Hpos Hv. destruct (valid_limit c) eqn:E.
  - destruct (f_some c E) as (d & -> & -> & Hd). rewrite !below_val by (rewrite ?lin_nan; assumption).
    rewrite lin_lt_pos by assumption. destruct (n_ltb x d); auto.
  - rewrite (f_none c E), !below_id by (assumption || reflexivity). reflexivity.
Qed.
Lemma above_lin c v w x : 0 < p -> (valid_limit c = true -> v = lin p q w) ->
  set_above c v (lin p q x) = lin p q (set_above (f c) w x).
Proof.
  intros Hpos Hv. destruct (valid_limit c) eqn:E.
  - destruct (f_some c E) as (d & -> & -> & Hd). rewrite !above_val by (rewrite ?lin_nan; assumption).
    rewrite lin_lt_pos by assumption. destruct (n_ltb d x); auto.
  - rewrite (f_none c E), !above_id by (assumption || reflexivity). reflexivity.
Qed.
Lemma below_lin_neg c v w x : p < 0 -> (valid_limit c = true -> v = lin p q w) ->
  set_below c v (lin p q x) = lin p q (set_above (f c) w x).
Proof.
  intros Hneg Hv. destruct (valid_limit c) eqn:E.
  - destruct (f_some c E) as (d & -> & -> & Hd). rewrite below_val, above_val by (rewrite ?lin_nan; assumption).
    rewrite lin_lt_neg by assumption. destruct (n_ltb d x); auto.
  - rewrite (f_none c E), below_id, above_id by (assumption || reflexivity). reflexivity.
Qed.
Lemma above_lin_neg c v w x : p < 0 -> (valid_limit c = true -> v = lin p q w) ->
  set_above c v (lin p q x) = lin p q (set_below (f c) w x).
Proof.
  intros Hneg Hv. destruct (valid_limit c) eqn:E.
  - destruct (f_some c E) as (d & -> & -> & Hd). rewrite below_val, above_val by (rewrite ?lin_nan; assumption).
    rewrite lin_lt_neg by assumption. destruct (n_ltb x d); auto.
  - rewrite (f_none c E), below_id, above_id by (assumption || reflexivity). reflexivity.
Qed.

(* the order of the two steps does not matter *)
Lemma below_above_nan a b x : set_above b NaN (set_below a NaN x) = set_below a NaN (set_above b NaN x).
Proof.
  destruct (valid_limit a) eqn:Ea; [|now rewrite !(below_id a) by assumption].
  destruct (valid_limit b) eqn:Eb; [|now rewrite !(above_id b) by assumption].
  destruct a as [a|], b as [b|]; try discriminate. cbn in Ea, Eb. apply negb_true_iff in Ea, Eb.
  rewrite !below_val, !above_val by assumption.
  destruct (n_ltb x a) eqn:E1, (n_ltb b x) eqn:E2; cbn; rewrite ?E1, ?E2; try reflexivity.
  - destruct b; reflexivity.
  - destruct b; reflexivity.
Qed.
Lemma below_above a b x : valid_limits a b a b = true ->
  set_above b (limit b) (set_below a (limit a) x) = set_below a (limit a) (set_above b (limit b) x).
Proof.
  intros Hv.
  destruct (valid_limit a) eqn:Ea; [|now rewrite !(below_id a) by assumption].
  destruct (valid_limit b) eqn:Eb; [|now rewrite !(above_id b) by assumption].
  unfold valid_limits in Hv. rewrite Ea, Eb in Hv. cbn [andb] in Hv.
  destruct a as [a|], b as [b|]; try discriminate. cbn in Ea, Eb, Hv. apply negb_true_iff in Ea, Eb.
  rewrite n_leb_alt, Ea, Eb in Hv. cbn in Hv. apply negb_true_iff in Hv.
  cbn [limit]. rewrite !below_val, !above_val by assumption.
  destruct (n_ltb x a) eqn:E1, (n_ltb b x) eqn:E2; rewrite ?E1, ?E2, ?Hv; try reflexivity.
  exfalso. ord.
Qed.

Lemma commute_eq c1 c2 a b : commute (Fin p) (Fin q) a b = (c1, c2) ->
  (c1, c2) = if n_ltb (Fin p) (Fin 0) then (f b, f a) else (f a, f b).
Proof. intros <-. reflexivity. Qed.

Lemma limit_lin c d : f c = d -> valid_limit c = true -> limit c = lin p q (limit d).
Proof. intros <- H. destruct (f_some c H) as (e & -> & -> & _). reflexivity. Qed.

Lemma f_valids a b : valid_limits (f a) (f b) (f a) (f b) =
  if valid_limit a && valid_limit b then self_le (f a) (f b) else true.
Proof. unfold valid_limits. now rewrite !f_valid. Qed.

Lemma self_le_pos a b : 0 < p -> valid_limit a = true -> valid_limit b = true -> self_le (f a) (f b) = self_le a b.
Proof.
  intros Hpos Ha Hb. destruct (f_some a Ha) as (d & -> & -> & Hd). destruct (f_some b Hb) as (e & -> & -> & He).
  cbn. rewrite !n_leb_alt, !lin_nan, lin_lt_pos by assumption. reflexivity.
Qed.
Lemma self_le_neg a b : p < 0 -> valid_limit a = true -> valid_limit b = true -> self_le (f b) (f a) = self_le a b.
Proof.
  intros Hneg Ha Hb. destruct (f_some a Ha) as (d & -> & -> & Hd). destruct (f_some b Hb) as (e & -> & -> & He).
  cbn. rewrite !n_leb_alt, !lin_nan, lin_lt_neg by assumption. rewrite Hd, He. reflexivity.
Qed.

Lemma sign_p : 0 < p \/ p < 0.
Proof. destruct (Qc_dec p 0) as [[H|H]|H]; auto. contradiction. Qed.

Lemma commute_clip a b c1 c2 x : commute (Fin p) (Fin q) a b = (c1, c2) ->
  eval1 (Clip a b) (lin p q x) = lin p q (eval1 (Clip c1 c2) x).
Proof.
  intros H. apply commute_eq in H. cbn [n_ltb] in H. cbn [eval1].
  destruct sign_p as [Hpos|Hneg].
  - assert (Qc_ltb p 0 = false) as E by (apply Qc_ltb_ge; revert Hpos; qclra). rewrite E in H. injection H as -> ->.
    rewrite f_valids.
    assert (valid_limits a b a b = if valid_limit a && valid_limit b then self_le (f a) (f b) else true) as ->.
    { unfold valid_limits. destruct (valid_limit a) eqn:Ea, (valid_limit b) eqn:Eb; try reflexivity. cbn.
      now rewrite self_le_pos. }
    destruct (if valid_limit a && valid_limit b then _ else true); [|reflexivity].
    rewrite (below_lin a (limit a) (limit (f a))) by (assumption || (intros; eapply limit_lin; [reflexivity|assumption])).
    rewrite (above_lin b (limit b) (limit (f b))) by (assumption || (intros; eapply limit_lin; [reflexivity|assumption])).
    reflexivity.
  - assert (Qc_ltb p 0 = true) as E by now apply Qc_ltb_lt. rewrite E in H. injection H as -> ->.
    rewrite f_valids.
    assert (valid_limits a b a b = if valid_limit b && valid_limit a then self_le (f b) (f a) else true) as Hv.
    { unfold valid_limits. destruct (valid_limit a) eqn:Ea, (valid_limit b) eqn:Eb; try reflexivity. cbn.
      now rewrite self_le_neg. }
    rewrite <- Hv. destruct (valid_limits a b a b) eqn:Ev; [|reflexivity].
    rewrite below_above by assumption.
    rewrite (above_lin_neg b (limit b) (limit (f b))) by (assumption || (intros; eapply limit_lin; [reflexivity|assumption])).
    rewrite (below_lin_neg a (limit a) (limit (f a))) by (assumption || (intros; eapply limit_lin; [reflexivity|assumption])).
    reflexivity.
Qed.
Lemma commute_nan a b c1 c2 x : commute (Fin p) (Fin q) a b = (c1, c2) ->
  eval1 (NaNClip a b) (lin p q x) = lin p q (eval1 (NaNClip c1 c2) x).
Proof.
  intros H. apply commute_eq in H. cbn [n_ltb] in H. cbn [eval1].
  destruct sign_p as [Hpos|Hneg].
  - assert (Qc_ltb p 0 = false) as E by (apply Qc_ltb_ge; revert Hpos; qclra). rewrite E in H. injection H as -> ->.
    rewrite (below_lin a NaN NaN), (above_lin b NaN NaN) by (assumption || reflexivity). reflexivity.
  - assert (Qc_ltb p 0 = true) as E by now apply Qc_ltb_lt. rewrite E in H. injection H as -> ->.
    rewrite below_above_nan.
    rewrite (above_lin_neg b NaN NaN), (below_lin_neg a NaN NaN) by (assumption || reflexivity). reflexivity.
Qed.
End Commute.

(* ---- merging limits ---- *)
Lemma valid_cases c : valid_limit c = false \/ exists v, c = Some v /\ is_nan v = false.
Proof.
  destruct c as [c|]; [|now left]. cbn. destruct (is_nan c) eqn:E; [now left|right; eauto].
Qed.

Lemma self_le_valid a b : valid_limits a b a b = true -> valid_limit a = true -> valid_limit b = true ->
  exists u v, a = Some u /\ b = Some v /\ is_nan u = false /\ is_nan v = false /\ n_ltb v u = false.
Proof.
  intros H Ha Hb. unfold valid_limits in H. rewrite Ha, Hb in H. cbn in H.
  destruct a as [u|], b as [v|]; try discriminate. exists u, v. cbn in *.
  rewrite n_leb_alt in H. apply andb_true_iff in H. destruct H as [H1 H2]. apply andb_true_iff in H1.
  rewrite !negb_true_iff in *. tauto.
Qed.

Ltac valid_split H c v Hv :=
  let E := fresh "E" in
  destruct (valid_cases c) as [E|(v & -> & Hv)]; [rewrite E in *|]; cbn [valid_limit] in *; rewrite ?Hv in *; cbn [negb andb orb] in *.

Ltac ltb_cases :=
  repeat (match goal with
  | H : n_ltb ?a ?b = _ |- context [n_ltb ?a ?b] => rewrite H
  | |- context [n_ltb ?a ?b] => let E := fresh "E" in destruct (n_ltb a b) eqn:E
  end; cbn [negb andb orb]).

Ltac le_cases :=
  repeat match goal with
  | H : n_ltb ?a ?b = false, Ha : is_nan ?a = false, Hb : is_nan ?b = false |- _ =>
      destruct (n_ltb_false a b Ha Hb H) as [?|?]; clear H; subst
  end.

Lemma clip_nan a b : eval1 (Clip a b) NaN = NaN.
Proof.
  cbn. destruct (valid_limits a b a b); [|reflexivity].
  destruct (valid_cases a) as [E|(u & -> & Hu)]; [rewrite (below_id a) by assumption|rewrite below_val by assumption; cbn];
  (destruct (valid_cases b) as [F|(v & -> & Hv)]; [rewrite (above_id b) by assumption|rewrite above_val by assumption; destruct v]; reflexivity).
Qed.
Lemma nanclip_nan a b : eval1 (NaNClip a b) NaN = NaN.
Proof.
  cbn [eval1].
  destruct (valid_cases a) as [E|(u & -> & Hu)]; [rewrite (below_id a) by assumption|rewrite below_val by assumption; cbn];
  (destruct (valid_cases b) as [F|(v & -> & Hv)]; [rewrite (above_id b) by assumption|rewrite above_val by assumption; destruct v]; reflexivity).
Qed.

(* what merging means *)
Lemma merge_spec smin smax rmin rmax c1 c2 : merge_limits smin smax rmin rmax = Some (c1, c2) ->
  valid_limits smin smax smin smax = true /\ valid_limits smin smax rmin rmax = true /\
  (forall u v, smax = Some u -> rmin = Some v -> is_nan u = false -> is_nan v = false -> n_ltb u v = false) /\
  (forall u v, rmax = Some u -> smin = Some v -> is_nan u = false -> is_nan v = false -> n_ltb u v = false) /\
  c1 = (if valid_limit rmin then if valid_limit smin then n_max smin rmin else rmin else smin) /\
  c2 = (if valid_limit rmax then if valid_limit smax then n_min smax rmax else rmax else smax).
Proof.
  unfold merge_limits.
  destruct (_ || _) eqn:E; [discriminate|]. intros H. injection H as <- <-.
  rewrite !orb_false_iff, !negb_false_iff in E. destruct E as [[[E1 E2] E3] E4].
  repeat split; auto.
  - intros u v -> -> Hu Hv. cbn in E3. rewrite Hu, Hv in E3. exact E3.
  - intros u v -> -> Hu Hv. cbn in E4. rewrite Hu, Hv in E4. exact E4.
Qed.

Lemma n_ltb_NaN_r a : n_ltb a NaN = false. Proof. destruct a; reflexivity. Qed.
Lemma lt_le_trans a b c : n_ltb a b = true -> n_ltb c b = false -> is_nan c = false -> n_ltb a c = true.
Proof.
  intros H1 H2 H3. destruct (n_ltb_nan _ _ H1) as [Ha Hb].
  destruct (n_ltb_false c b H3 Hb H2) as [->|H]; [assumption|]. eapply n_ltb_trans; eauto.
Qed.
Lemma le_lt_trans a b c : n_ltb b a = false -> n_ltb b c = true -> is_nan a = false -> n_ltb a c = true.
Proof.
  intros H1 H2 H3. destruct (n_ltb_nan _ _ H2) as [Hb Hc].
  destruct (n_ltb_false b a Hb H3 H1) as [->|H]; [assumption|]. eapply n_ltb_trans; eauto.
Qed.
Lemma le_le_trans a b c : n_ltb b a = false -> n_ltb c b = false -> is_nan b = false -> n_ltb c a = false.
Proof.
  intros H1 H2 H3. destruct (n_ltb c a) eqn:E; [|reflexivity].
  destruct (n_ltb_nan _ _ E) as [Hc Ha]. pose proof (lt_le_trans _ _ _ E H1 H3). congruence.
Qed.

(* finitely many numbers other than NaN are ordered like rationals *)
Definition emb (B : Qc) (a : num) : Qc :=
  match a with Fin q => q | PInf => B | NInf => - B | NaN => 0 end.
Fixpoint bound (l : list num) : Qc :=
  match l with
  | [] => 1
  | Fin q :: l' => bound l' + Qc_abs q
  | _ :: l' => bound l'
  end.
Lemma Qc_abs_nonneg q : 0 <= Qc_abs q.
Proof. unfold Qc_abs. qcb; revert E; qclra. Qed.
Lemma Qc_abs_ge q : q <= Qc_abs q /\ - q <= Qc_abs q.
Proof. unfold Qc_abs. qcb; split; revert E; qclra. Qed.
Lemma bound_pos l : 0 < bound l.
Proof.
  induction l as [|[q| | |] l IH]; cbn; try assumption; [reflexivity|].
  pose proof (Qc_abs_nonneg q). qclra.
Qed.
Lemma bound_ge l q : In (Fin q) l -> q < bound l /\ - bound l < q.
Proof.
  induction l as [|y l IH]; intros H; [destruct H|].
  destruct H as [->|H].
  - cbn. pose proof (bound_pos l). pose proof (Qc_abs_ge q) as [? ?]. split; qclra.
  - specialize (IH H). destruct y as [r| | |]; cbn; try assumption.
    pose proof (Qc_abs_nonneg r). destruct IH as [H1 H2]. split; revert H1 H2 H0; qclra.
Qed.
Lemma emb_ltb l u v : In u l -> In v l -> is_nan u = false -> is_nan v = false ->
  n_ltb u v = Qc_ltb (emb (bound l) u) (emb (bound l) v).
Proof.
  intros Hu Hv Nu Nv. pose proof (bound_pos l) as HB.
  destruct u as [p| | |], v as [q| | |]; try discriminate; cbn [n_ltb emb]; try reflexivity;
    try (pose proof (bound_ge _ _ Hu) as [? ?]); try (pose proof (bound_ge _ _ Hv) as [? ?]);
    symmetry; (apply Qc_ltb_lt || apply Qc_ltb_ge); qclra.
Qed.

Ltac dead := exfalso; qclra.
Ltac clip_step :=
  first
  [ rewrite n_ltb_NaN_r
  | match goal with
    | |- context [n_ltb ?a ?a] => rewrite (n_ltb_irrefl a)
    | |- context [n_ltb NaN ?a] => change (n_ltb NaN a) with false
    | He : forall u v, In u _ -> In v _ -> n_ltb u v = _ |- context [n_ltb ?a ?b] =>
        is_var a; is_var b; rewrite (He a b) by (cbn; tauto);
        let E := fresh "E" in destruct (Qc_ltb _ _) eqn:E; qc_bool; try dead
    end ];
  cbn [negb andb].
Ltac clip_cases He :=
  repeat (first [reflexivity | clip_step]);
  match goal with
  | |- ?a = ?b => apply n_ltb_total; try assumption; rewrite He by (cbn; tauto); apply Qc_ltb_ge; qclra
  end.

(* limits as numbers: an invalid limit is an infinite one *)
Definition lo (c : option num) : num := if valid_limit c then limit c else NInf.
Definition hi (c : option num) : num := if valid_limit c then limit c else PInf.
Lemma lo_nan c : is_nan (lo c) = false.
Proof. unfold lo. destruct (valid_cases c) as [->|(v & -> & Hv)]; [reflexivity|]. cbn. rewrite Hv. assumption. Qed.
Lemma hi_nan c : is_nan (hi c) = false.
Proof. unfold hi. destruct (valid_cases c) as [->|(v & -> & Hv)]; [reflexivity|]. cbn. rewrite Hv. assumption. Qed.
Lemma below_lo c x : set_below c (limit c) x = if n_ltb x (lo c) then lo c else x.
Proof.
  unfold lo. destruct (valid_cases c) as [E|(v & -> & Hv)].
  - rewrite below_id, E by assumption. destruct x; reflexivity.
  - rewrite below_val by assumption. cbn. now rewrite Hv.
Qed.
Lemma above_hi c x : set_above c (limit c) x = if n_ltb (hi c) x then hi c else x.
Proof.
  unfold hi. destruct (valid_cases c) as [E|(v & -> & Hv)].
  - rewrite above_id, E by assumption. destruct x; reflexivity.
  - rewrite above_val by assumption. cbn. now rewrite Hv.
Qed.
Lemma below_lo_nan c x : set_below c NaN x = if n_ltb x (lo c) then NaN else x.
Proof.
  unfold lo. destruct (valid_cases c) as [E|(v & -> & Hv)].
  - rewrite below_id, E by assumption. destruct x; reflexivity.
  - rewrite below_val by assumption. cbn. now rewrite Hv.
Qed.
Lemma above_hi_nan c x : set_above c NaN x = if n_ltb (hi c) x then NaN else x.
Proof.
  unfold hi. destruct (valid_cases c) as [E|(v & -> & Hv)].
  - rewrite above_id, E by assumption. destruct x; reflexivity.
  - rewrite above_val by assumption. cbn. now rewrite Hv.
Qed.
Lemma valids_lo a b : valid_limits a b a b = negb (n_ltb (hi b) (lo a)).
Proof.
  unfold valid_limits, lo, hi.
  destruct (valid_cases a) as [E|(u & -> & Hu)]; destruct (valid_cases b) as [F|(v & -> & Hv)];
    rewrite ?E, ?F; cbn; rewrite ?Hu, ?Hv; cbn; try reflexivity.
  all: try (destruct u; discriminate || reflexivity). all: try (destruct v; discriminate || reflexivity).
  rewrite n_leb_alt, Hu, Hv. reflexivity.
Qed.
Lemma merge_lo a c : lo (if valid_limit c then if valid_limit a then n_max a c else c else a)
  = if n_ltb (lo a) (lo c) then lo c else lo a.
Proof.
  unfold lo. destruct (valid_cases a) as [E|(u & -> & Hu)]; destruct (valid_cases c) as [F|(v & -> & Hv)];
    rewrite ?E, ?F; cbn; rewrite ?Hu, ?Hv; cbn; rewrite ?E, ?Hu, ?Hv; try reflexivity.
  all: try (destruct u; discriminate || reflexivity). all: try (destruct v; discriminate || reflexivity).
  all: destruct (n_ltb u v); cbn; rewrite ?Hu, ?Hv; reflexivity.
Qed.
Lemma merge_hi b d : hi (if valid_limit d then if valid_limit b then n_min b d else d else b)
  = if n_ltb (hi d) (hi b) then hi d else hi b.
Proof.
  unfold hi. destruct (valid_cases b) as [E|(u & -> & Hu)]; destruct (valid_cases d) as [F|(v & -> & Hv)];
    rewrite ?E, ?F; cbn; rewrite ?Hu, ?Hv; cbn; rewrite ?E, ?Hu, ?Hv; try reflexivity.
  all: try (destruct u; discriminate || reflexivity). all: try (destruct v; discriminate || reflexivity).
  all: destruct (n_ltb v u); cbn; rewrite ?Hu, ?Hv; reflexivity.
Qed.
Lemma apart b c : (forall u v, b = Some u -> c = Some v -> is_nan u = false -> is_nan v = false -> n_ltb u v = false) ->
  n_ltb (hi b) (lo c) = false.
Proof.
  intros H. unfold lo, hi. destruct (valid_cases b) as [E|(u & -> & Hu)]; destruct (valid_cases c) as [F|(v & -> & Hv)];
    rewrite ?E, ?F; cbn; rewrite ?Hu, ?Hv; cbn; try reflexivity.
  all: try (destruct u; discriminate || reflexivity). all: try (destruct v; discriminate || reflexivity).
  all: apply H; auto.
Qed.

Lemma merge_clip smin smax rmin rmax c1 c2 x : merge_limits smin smax rmin rmax = Some (c1, c2) ->
  eval1 (Clip smin smax) (eval1 (Clip rmin rmax) x) = eval1 (Clip c1 c2) x.
Proof.
  intros H. destruct (merge_spec _ _ _ _ _ _ H) as (Hs & _ & Hsr & Hrs & -> & ->). clear H.
  destruct (is_nan x) eqn:Hx. { destruct x; try discriminate. now rewrite !clip_nan. }
  apply apart in Hsr, Hrs. rewrite valids_lo in Hs. apply negb_true_iff in Hs.
  cbn [eval1]. rewrite !valids_lo, !below_lo, !above_hi, merge_lo, merge_hi.
  pose proof (lo_nan smin) as Ha. pose proof (hi_nan smax) as Hb. pose proof (lo_nan rmin) as Hc. pose proof (hi_nan rmax) as Hd.
  revert Hs Hsr Hrs Ha Hb Hc Hd.
  generalize (lo smin) as a, (hi smax) as b, (lo rmin) as c, (hi rmax) as d. intros a b c d Hba Hbc Hda Ha Hb Hc Hd.
  assert (forall u v, In u [a; b; c; d; x] -> In v [a; b; c; d; x] ->
    n_ltb u v = Qc_ltb (emb (bound [a; b; c; d; x]) u) (emb (bound [a; b; c; d; x]) v)) as He.
  { intros u v Hu Hv. apply emb_ltb; try assumption; cbn in Hu, Hv;
      repeat match goal with H : _ \/ _ |- _ => destruct H as [<-|H] | H : False |- _ => destruct H end; assumption. }
  revert He. generalize (emb (bound [a; b; c; d; x])). intros e He.
  rewrite Hba. rewrite He in Hba, Hbc, Hda by (cbn; tauto). qc_bool. cbn [negb].
  rewrite (He d c) by (cbn; tauto). destruct (Qc_ltb (e d) (e c)) eqn:Edc; qc_bool; cbn [negb].
  - clip_cases He.
  - clip_cases He.
Qed.
Lemma merge_nan smin smax rmin rmax c1 c2 x : merge_limits smin smax rmin rmax = Some (c1, c2) ->
  eval1 (NaNClip smin smax) (eval1 (NaNClip rmin rmax) x) = eval1 (NaNClip c1 c2) x.
Proof.
  intros H. destruct (merge_spec _ _ _ _ _ _ H) as (_ & _ & _ & _ & -> & ->). clear H.
  destruct (is_nan x) eqn:Hx. { destruct x; try discriminate. now rewrite !nanclip_nan. }
  cbn [eval1]. rewrite !below_lo_nan, !above_hi_nan, merge_lo, merge_hi.
  pose proof (lo_nan smin) as Ha. pose proof (hi_nan smax) as Hb. pose proof (lo_nan rmin) as Hc. pose proof (hi_nan rmax) as Hd.
  revert Ha Hb Hc Hd.
  generalize (lo smin) as a, (hi smax) as b, (lo rmin) as c, (hi rmax) as d. intros a b c d Ha Hb Hc Hd.
  assert (forall u v, In u [a; b; c; d; x] -> In v [a; b; c; d; x] ->
    n_ltb u v = Qc_ltb (emb (bound [a; b; c; d; x]) u) (emb (bound [a; b; c; d; x]) v)) as He.
  { intros u v Hu Hv. apply emb_ltb; try assumption; cbn in Hu, Hv;
      repeat match goal with H : _ \/ _ |- _ => destruct H as [<-|H] | H : False |- _ => destruct H end; assumption. }
  revert He. generalize (emb (bound [a; b; c; d; x])). intros e He.
  clip_cases He.
Qed.
