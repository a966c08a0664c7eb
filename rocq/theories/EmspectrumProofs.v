From Verif Require Export EmspectrumSpec LutProofs.
From Verif Require Import BaseProofs ListToolsProofs.
Local Open Scope Qc_scope.

Lemma weighted_cons f k w l : weighted f ((k, w) :: l) = w * f k + weighted f l.
Proof. reflexivity. Qed.
Lemma weighted_app f l m : weighted f (l ++ m) = weighted f l + weighted f m.
Proof. unfold weighted. rewrite map_app. apply sum_app. Qed.
Lemma weighted_one l : weighted (fun _ => 1) l = intensity l.
Proof. unfold weighted, intensity. f_equal. apply map_ext. intros [k w]. cbn [fst snd]. ring. Qed.

Lemma Qc_eqb_refl x : Qc_eqb x x = true.
Proof. now apply Qc_eqb_spec. Qed.
Lemma values_of_cons (v k w : Qc) l : values_of Qc_eqb v ((k, w) :: l) = if Qc_eqb v k then w :: values_of Qc_eqb v l else values_of Qc_eqb v l.
Proof. unfold values_of. cbn [filter fst]. destruct (Qc_eqb v k); reflexivity. Qed.

Definition without (k : Qc) (l : list (Qc * Qc)) := filter (fun p => negb (Qc_eqb k (fst p))) l.
Lemma without_weighted f k l : weighted f l = sum (values_of Qc_eqb k l) * f k + weighted f (without k l).
Proof.
  induction l as [|[a w] l IH]; [cbn; ring|]. rewrite weighted_cons, values_of_cons. unfold without. cbn [filter fst].
  destruct (Qc_eqb k a) eqn:E; cbn [negb].
  - apply Qc_eqb_spec in E. subst a. cbn [sum]. rewrite IH. unfold without. ring.
  - rewrite weighted_cons, IH. unfold without. ring.
Qed.
Lemma without_values v k l : values_of Qc_eqb v (without k l) = if Qc_eqb v k then [] else values_of Qc_eqb v l.
Proof.
  induction l as [|[a w] l IH]; [destruct (Qc_eqb v k); reflexivity|]. unfold without. cbn [filter fst].
  destruct (Qc_eqb k a) eqn:E; cbn [negb]; fold (without k l).
  - apply Qc_eqb_spec in E. subst a. rewrite IH, values_of_cons. destruct (Qc_eqb v k); reflexivity.
  - rewrite !values_of_cons, IH. destruct (Qc_eqb v k) eqn:F; [|reflexivity]. apply Qc_eqb_spec in F. subst v. rewrite E. reflexivity.
Qed.
Lemma collected f pts : forall l, NoDup (map fst pts) ->
  (forall v, lookup Qc_eqb v pts = match values_of Qc_eqb v l with [] => None | vs => Some (sum vs) end) ->
  weighted f pts = weighted f l.
Proof.
  induction pts as [|[k w] pts IH]; intros l N H.
  - destruct l as [|[a w] l]; [reflexivity|]. specialize (H a). rewrite values_of_cons, Qc_eqb_refl in H. discriminate.
  - cbn [map fst] in N. inversion N as [|? ? Nk N']; subst.
    rewrite weighted_cons, (without_weighted f k l), (IH (without k l) N').
    + f_equal. f_equal. specialize (H k). cbn [lookup] in H. rewrite Qc_eqb_refl in H.
      destruct (values_of Qc_eqb k l); [discriminate | congruence].
    + intro v. rewrite without_values. specialize (H v). cbn [lookup] in H. destruct (Qc_eqb v k) eqn:E; [|exact H].
      apply Qc_eqb_spec in E. subst v. apply (lookup_None _ Qc_eqb_decides). exact Nk.
Qed.

Lemma good_points t : good t -> NoDup (map fst (points t)).
Proof.
  unfold good, points. destruct (lxy t) as [[x y]|]; [|constructor]. intros (L & _ & S & _). rewrite map_fst_combine by exact L. now apply strict_NoDup.
Qed.

(* what a spectrum holds *)
Definition holds (l : list (Qc * Qc)) (t : lut) : Prop :=
  good t /\ lxy t <> None /\ forall v, lookup Qc_eqb v (points t) = match values_of Qc_eqb v l with [] => None | vs => Some (sum vs) end.

Lemma built_holds l t : built l t -> holds l t.
Proof.
  induction 1 as [x y t L D | l t x y t' B (G & N & H) L D].
  - unfold discrete in D. destruct x as [|x0 x]; [discriminate|]. destruct y as [|y0 y]; [discriminate|].
    pose proof (new_data_step true (x0 :: x) (y0 :: y) (lut_clear (Some 0)) eq_refl L) as S.
    destruct (new_data true (x0 :: x) (y0 :: y) (lut_clear (Some 0))) as [[u|e] t1]; [|discriminate].
    assert (t1 = t) as -> by congruence. destruct S as (G & N & S). split; [exact G|]. split; [exact N|].
    intro v. rewrite S. destruct (values_of Qc_eqb v (combine (x0 :: x) (y0 :: y))) as [|w ws]; [reflexivity|].
    cbn [points lut_clear lxy lookup]. f_equal. ring.
  - unfold discrete_plus in D. pose proof (new_data_step true x y t G L) as S.
    destruct (new_data true x y t) as [[u|e] t1]; [|discriminate]. assert (t1 = t') as -> by congruence.
    destruct S as (G' & N' & S). split; [exact G'|]. split; [exact N'|]. intro v. rewrite S, values_of_app, H.
    destruct (values_of Qc_eqb v (combine x y)) as [|w ws].
    + rewrite app_nil_r. reflexivity.
    + destruct (values_of Qc_eqb v l) as [|a vs]; cbn [app].
      * f_equal. ring.
      * f_equal. cbn [sum]. rewrite sum_app. cbn [sum]. ring.
Qed.

Lemma holds_weighted f l t : holds l t -> weighted f (points t) = weighted f l.
Proof. intros (G & _ & H). apply collected; [now apply good_points | exact H]. Qed.

Lemma lines_spec l t : built l t -> exists x, lines t = Some x /\ strictly_increasing x /\ forall v, In v x <-> In v (map fst l).
Proof.
  intro B. destruct (built_holds l t B) as (G & N & H). unfold lines. unfold good in G. unfold points in H.
  destruct (lxy t) as [[x y]|] eqn:E; [|contradiction]. destruct G as (L & _ & S & _). exists x. split; [reflexivity|]. split; [exact S|].
  intro v. specialize (H v).
  rewrite <- (map_fst_combine x y L) at 1. change (map fst (combine x y)) with (keys (combine x y)).
  destruct (in_dec Qc_eq_dec v (map fst l)) as [I|I].
  - split; [intros _; exact I|]. intros _. destruct (values_of Qc_eqb v l) as [|w ws] eqn:V; [apply values_of_nil_iff in V; contradiction|].
    apply (lookup_Some_In _ Qc_eqb_decides) in H. apply (in_map fst) in H. exact H.
  - split; [|contradiction]. intro J. exfalso. rewrite (proj2 (values_of_nil_iff v l) I) in H.
    apply (lookup_None _ Qc_eqb_decides) in H. contradiction.
Qed.
Lemma intensities_spec l t : built l t -> exists x y, lines t = Some x /\ intensities t = Ok y /\ length x = length y /\
  forall v w, In (v, w) (combine x y) -> w = sum (values_of Qc_eqb v l).
Proof.
  intro B. destruct (built_holds l t B) as (G & N & H). unfold lines, intensities. pose proof (good_points t G) as ND. unfold good in G. unfold points in H, ND.
  destruct (lxy t) as [[x y]|] eqn:E; [|contradiction]. destruct G as (L & _). exists x, y. repeat (split; [reflexivity || exact L|]).
  intros v w I. specialize (H v). rewrite (In_lookup _ Qc_eqb_decides _ _ _ ND I) in H. destruct (values_of Qc_eqb v l); [discriminate | congruence].
Qed.
Lemma map_snd_combine {A B} (a : list A) (b : list B) : length a = length b -> map snd (combine a b) = b.
Proof. revert b; induction a as [|x a IH]; intros [|y b]; cbn; try discriminate; auto. intros [= H]. now rewrite IH. Qed.
Lemma built_xy l t : built l t -> exists x y, lxy t = Some (x, y) /\ length x = length y /\ forall f, weighted f (combine x y) = weighted f l.
Proof.
  intro B. pose proof (built_holds l t B) as HH. pose proof (fun f => holds_weighted f l t HH) as W. destruct HH as (G & N & _).
  unfold good in G. unfold points in W. destruct (lxy t) as [[x y]|]; [|contradiction]. exists x, y. split; [reflexivity|]. split; [tauto|exact W].
Qed.
Lemma total_xy x y t l : lxy t = Some (x, y) -> length x = length y -> (forall f, weighted f (combine x y) = weighted f l) -> total_intensity t = Ok (intensity l).
Proof.
  intros E L W. unfold total_intensity, intensities. rewrite E. cbn [bind]. rewrite sum_fold. f_equal. rewrite <- weighted_one, <- W, weighted_one.
  unfold intensity. rewrite map_snd_combine by exact L. ring.
Qed.
Lemma total_spec l t : built l t -> total_intensity t = Ok (intensity l).
Proof. intro B. destruct (built_xy l t B) as (x & y & E & L & W). exact (total_xy x y t l E L W). Qed.
Lemma sum_div y s : s <> 0 -> sum (map (fun i => i / s) y) * s = sum y.
Proof.
  intro H. induction y as [|a y IH]; cbn [map sum]; [ring|]. rewrite <- IH. field. exact H.
Qed.
Lemma ratios_spec l t : built l t -> intensity l <> 0 ->
  exists y r, intensities t = Ok y /\ ratios t = Ok (map Some r) /\ map (fun q => q * intensity l) r = y /\ sum r = 1.
Proof.
  intros B N. destruct (built_xy l t B) as (x & y & E & L & W). pose proof (total_xy x y t l E L W) as T.
  exists y, (map (fun i => i / intensity l) y). unfold ratios. rewrite T. unfold intensities in *. rewrite E. cbn [bind].
  apply Qc_eqb_false in N. rewrite N. apply Qc_eqb_false in N. split; [reflexivity|]. split; [rewrite map_map; reflexivity|]. split.
  - rewrite map_map. rewrite <- (map_id y) at 2. apply map_ext. intro i. field. exact N.
  - pose proof (sum_div y (intensity l) N) as S. assert (sum y = intensity l) as Y.
    { rewrite <- weighted_one, <- W, weighted_one. unfold intensity. rewrite map_snd_combine by exact L. reflexivity. }
    rewrite Y in S. set (s := sum (map (fun i => i / intensity l) y)) in *. clearbody s.
    assert (s = s * intensity l / intensity l) as -> by (field; exact N). rewrite S. field. exact N.
Qed.
Lemma ratios_zero l t : built l t -> intensity l = 0 -> exists y, intensities t = Ok y /\ ratios t = Ok (map (fun _ => None) y).
Proof.
  intros B Z. destruct (built_xy l t B) as (x & y & E & L & W). pose proof (total_xy x y t l E L W) as T. exists y.
  unfold ratios. rewrite T. unfold intensities. rewrite E. cbn [bind]. rewrite Z, Qc_eqb_refl. split; reflexivity.
Qed.

(* ---- sampling ---- *)
Lemma fold_oplus l a : fold_left oplus (map Some l) (Some a) = Some (a + sum l).
Proof. revert a. induction l as [|b l IH]; intro a; cbn [map fold_left sum oplus]; [f_equal; ring|]. rewrite IH. f_equal. ring. Qed.
Lemma fold_oplus_none l : fold_left oplus l None = None.
Proof. induction l as [|b l IH]; [reflexivity|exact IH]. Qed.
Lemma fold_oplus_In l a : In None l -> fold_left oplus l a = None.
Proof.
  revert a. induction l as [|b l IH]; intros a H; [contradiction|]. cbn [fold_left]. destruct H as [-> | H]; [|now apply IH].
  destruct a; apply fold_oplus_none.
Qed.
Lemma calls_ok (L : lut) g (f : Qc -> Qc) x : (forall v, In v x -> lut_call L (g v) = Ok (Some (f v))) -> mapM (lut_call L) (map g x) = Ok (map (fun v => Some (f v)) x).
Proof.
  induction x as [|v x IH]; intro H; [reflexivity|]. cbn [map mapM]. rewrite (H v (or_introl eq_refl)). cbn [bind]. rewrite IH; [reflexivity|].
  intros w I. apply H. now right.
Qed.
Lemma products (f : Qc -> Qc) s x y : map (fun p => omult (fst p) (snd p)) (combine (map (fun v => Some (f v)) x) (map (fun i => Some (i / s)) y)) =
  map Some (map (fun p => f (fst p) * (snd p / s)) (combine x y)).
Proof.
  revert y. induction x as [|v x IH]; intros [|i y]; try reflexivity. cbn [map combine fst snd omult]. rewrite IH. reflexivity.
Qed.
Lemma products_sum f s l : s <> 0 -> sum (map (fun p => f (fst p) * (snd p / s)) l) * s = weighted f l.
Proof.
  intro H. induction l as [|[v i] l IH]; [cbn; ring|]. rewrite weighted_cons. cbn [map sum fst snd]. rewrite <- IH. field. exact H.
Qed.
Lemma call_unconverted conv (L : lut) x : mapM (lut_call L) (match lxy L with None => x | Some _ => map conv x end) = mapM (lut_call L) (map conv x).
Proof.
  destruct (lxy L) as [p|] eqn:E; [reflexivity|]. induction x as [|v x IH]; [reflexivity|]. cbn [map mapM]. rewrite IH. f_equal.
  unfold lut_call. rewrite E. reflexivity.
Qed.
Lemma sample_spec conv l t L f : built l t -> intensity l <> 0 -> (forall v, In v (map fst l) -> lut_call L (conv v) = Ok (Some (f v))) ->
  exists r, sample conv t L = Ok (Some r) /\ r * intensity l = weighted f l.
Proof.
  intros B N H. destruct (lines_spec l t B) as (x' & X & _ & I). destruct (built_xy l t B) as (x & y & E & Len & W).
  pose proof (total_xy x y t l E Len W) as T. assert (x' = x) as -> by (unfold lines in X; rewrite E in X; congruence).
  unfold sample. rewrite E, call_unconverted, (calls_ok L conv f x) by (intros v Hv; apply H, I, Hv). cbn [bind].
  unfold ratios. rewrite T. unfold intensities. rewrite E. cbn [bind]. pose proof N as N'. apply Qc_eqb_false in N'. rewrite N'.
  rewrite products, fold_oplus. eexists. split; [reflexivity|]. rewrite Qcplus_0_l, products_sum by exact N. apply W.
Qed.
Lemma weighted_le f g l : (forall v w, In (v, w) l -> 0 <= w /\ f v <= g v) -> weighted f l <= weighted g l.
Proof.
  induction l as [|[v w] l IH]; intro H; [cbn; apply Qcle_refl|]. rewrite !weighted_cons.
  destruct (H v w (or_introl eq_refl)) as [Hw Hf]. assert (weighted f l <= weighted g l) as Hl by (apply IH; intros a b I; apply H; now right).
  clear IH H. generalize dependent (weighted f l). generalize dependent (weighted g l). generalize dependent (f v). generalize dependent (g v). clear - Hw. intros. qcnra.
Qed.
Lemma weighted_const c l : weighted (fun _ => c) l = c * intensity l.
Proof. unfold weighted, intensity. induction l as [|[v w] l IH]; cbn [map sum fst snd]; [ring|]. rewrite IH. ring. Qed.
Lemma intensity_pos l : (forall v w, In (v, w) l -> 0 <= w) -> 0 <= intensity l.
Proof.
  unfold intensity. induction l as [|[v w] l IH]; intro H; [cbn; apply Qcle_refl|]. cbn [map sum snd].
  pose proof (H v w (or_introl eq_refl)) as Hw. assert (0 <= sum (map snd l)) as Hl by (apply IH; intros a b I; apply (H a b); now right).
  clear IH H. generalize dependent (sum (map snd l)). intros. qclra.
Qed.
Lemma sample_between conv l t L f a b : built l t -> intensity l <> 0 -> (forall v w, In (v, w) l -> 0 <= w) ->
  (forall v, In v (map fst l) -> lut_call L (conv v) = Ok (Some (f v)) /\ a <= f v /\ f v <= b) ->
  exists r, sample conv t L = Ok (Some r) /\ a <= r /\ r <= b.
Proof.
  intros B N P H. destruct (sample_spec conv l t L f B N (fun v I => proj1 (H v I))) as (r & R & E). exists r. split; [exact R|].
  assert (forall v w, In (v, w) l -> 0 <= w /\ a <= f v) as Ha.
  { intros v w I. split; [now apply (P v)|]. apply (H v). apply (in_map fst) in I. exact I. }
  assert (forall v w, In (v, w) l -> 0 <= w /\ f v <= b) as Hb.
  { intros v w I. split; [now apply (P v)|]. apply (H v). apply (in_map fst) in I. exact I. }
  pose proof (weighted_le (fun _ => a) f l Ha) as WA. pose proof (weighted_le f (fun _ => b) l Hb) as WB.
  rewrite weighted_const in WA, WB. rewrite <- E in WA, WB. pose proof (intensity_pos l P) as I0.
  assert (0 < intensity l) as Ip.
  { destruct (Qcle_lt_or_eq _ _ I0) as [I1|I1]; [exact I1|]. exfalso. apply N. symmetry. exact I1. }
  clear - WA WB Ip. generalize dependent (intensity l). intros q WA WB Ip. split; qcnra.
Qed.
Lemma sample_constant conv l t L c : built l t -> intensity l <> 0 -> (forall v, In v (map fst l) -> lut_call L (conv v) = Ok (Some c)) ->
  sample conv t L = Ok (Some c).
Proof.
  intros B N H. destruct (sample_spec conv l t L (fun _ => c) B N H) as (r & -> & E). do 2 f_equal. rewrite weighted_const in E.
  assert (r = r * intensity l / intensity l) as -> by (field; exact N). rewrite E. field. exact N.
Qed.
Lemma sample_no_table conv l t c : built l t -> intensity l <> 0 -> sample conv t (lut_clear (Some c)) = Ok (Some c).
Proof. intros B N. apply (sample_constant conv l); [exact B | exact N | reflexivity]. Qed.
Lemma sample_dark conv d L : sample conv (lut_clear d) L = Ok (ldefault L).
Proof. reflexivity. Qed.
Lemma sample_zero conv l t L f : built l t -> intensity l = 0 -> (forall v, In v (map fst l) -> lut_call L (conv v) = Ok (f v)) ->
  sample conv t L = Ok None.
Proof.
  intros B Z H. destruct (lines_spec l t B) as (x' & X & _ & I). destruct (built_holds l t B) as (G & _). destruct (built_xy l t B) as (x & y & E & Len & W).
  assert (x <> []) as NE by (unfold good in G; rewrite E in G; tauto).
  pose proof (total_xy x y t l E Len W) as T. assert (x' = x) as -> by (unfold lines in X; rewrite E in X; congruence).
  unfold sample. rewrite E, call_unconverted.
  assert (exists m, mapM (lut_call L) (map conv x) = Ok m /\ length m = length x) as (m & -> & Lm).
  { assert (forall v, In v x -> lut_call L (conv v) = Ok (f v)) as H' by (intros v Hv; apply H, I, Hv). clear - H'. induction x as [|v x IH]; [exists []; split; reflexivity|].
    cbn [map mapM]. rewrite (H' v (or_introl eq_refl)). destruct IH as (m & -> & Lm); [intros w Iw; apply H'; now right|]. cbn [bind].
    eexists; split; [reflexivity|]. cbn. now rewrite Lm. }
  cbn [bind]. unfold ratios. rewrite T. unfold intensities. rewrite E. cbn [bind]. rewrite Z, Qc_eqb_refl. f_equal. apply fold_oplus_In.
  destruct x as [|x0 x]; [contradiction|]. destruct y as [|y0 y]; [discriminate|]. destruct m as [|m0 m]; [discriminate|].
  cbn [map combine fst snd]. left. destruct m0; reflexivity.
Qed.
(* no intensities given *)
Lemma no_intensities x t : discrete (Some x) None = Ok t -> built (combine x (repeat 0 (length x))) t /\ intensity (combine x (repeat 0 (length x))) = 0.
Proof.
  intro H. split.
  - constructor; [symmetry; apply repeat_length|]. unfold discrete in *. destruct x as [|x0 x]; [discriminate|]. exact H.
  - unfold intensity. rewrite map_snd_combine by (symmetry; apply repeat_length). clear. induction x as [|a x IH]; [reflexivity|]. cbn [length repeat sum]. rewrite IH. ring.
Qed.
Lemma discrete_total x y : x <> [] -> y <> [] -> length x = length y -> exists t, discrete (Some x) (Some y) = Ok t.
Proof.
  intros Nx Ny L. unfold discrete. destruct x as [|x0 x]; [contradiction|]. destruct y as [|y0 y]; [contradiction|].
  pose proof (new_data_step true (x0 :: x) (y0 :: y) (lut_clear (Some 0)) eq_refl L) as S.
  destruct (new_data true (x0 :: x) (y0 :: y) (lut_clear (Some 0))) as [[u|e] t1]; [eexists; reflexivity|]. destruct S as (_ & S & _). discriminate.
Qed.
Lemma discrete_empty : forall y, discrete (Some []) y = Err StopIteration.
Proof. reflexivity. Qed.
Lemma discrete_dark : discrete None None = Ok dark /\ intensities dark = Err AttributeError /\ total_intensity dark = Err AttributeError /\ ratios dark = Err AttributeError /\ lines dark = None.
Proof. repeat split. Qed.
Lemma dark_lines : nlines dark = 1%nat.
Proof. reflexivity. Qed.
Lemma nlines_spec l t : built l t -> exists x, lines t = Some x /\ nlines t = length x.
Proof.
  intro B. destruct (built_xy l t B) as (x & y & E & _). exists x. unfold lines, nlines, lut_len. rewrite E. split; reflexivity.
Qed.
Lemma dark_gets_lines x y : x <> [] -> y <> [] -> length x = length y -> exists t, discrete_plus dark x y = Ok (Some t) /\ built (combine x y) t /\ lines t <> None.
Proof.
  intros Nx Ny L. destruct (discrete_total x y Nx Ny L) as [t T]. exists t. split.
  - unfold discrete_plus, dark. unfold discrete in T. destruct x as [|x0 x]; [contradiction|]. destruct y as [|y0 y]; [contradiction|].
    destruct (new_data true (x0 :: x) (y0 :: y) (lut_clear (Some 0))) as [[u|e] t1]; congruence.
  - assert (built (combine x y) t) as B by (constructor; assumption). split; [exact B|]. destruct (lines_spec _ _ B) as (z & -> & _). discriminate.
Qed.
Lemma dark_operator x y : dark_plus dark x y = None.
Proof. reflexivity. Qed.
