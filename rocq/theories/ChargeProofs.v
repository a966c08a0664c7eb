From Verif Require Import ChargeModel ChargeSpec FitSpec FitProofs.
From Verif Require Import ScalarProofs.
From Coq Require Import Lia.
Local Open Scope Qc_scope.

Lemma total_sum l : total l = sum l. Proof. induction l; cbn; congruence. Qed.
Lemma nz_eqb q : q <> 0 -> Qc_eqb q 0 = false.
Proof. intros H. destruct (Qc_eqb q 0) eqn:E; [|reflexivity]. qc_bool. contradiction. Qed.
Lemma sum_scale {A} (f : A -> Qc) k l : sum (map (fun x => k * f x) l) = k * sum (map f l).
Proof. induction l as [|x l IH]; cbn [map sum]; [ring|]. rewrite IH. ring. Qed.
Lemma sum_const {A} c (l : list A) : sum (map (fun _ => c) l) = qn l * c.
Proof.
  unfold qn. induction l as [|x l IH]; cbn [map sum length]; [change (Z.of_nat 0) with 0%Z; change (Qc_of_Z 0) with 0; ring|].
  rewrite IH, Nat2Z.inj_succ. unfold Z.succ. rewrite Qc_of_Z_plus, of_Z_1. ring.
Qed.
Lemma qn_nz {A} (x : A) l : qn (x :: l) <> 0.
Proof. unfold qn. intros E. change 0 with (Qc_of_Z 0) in E. apply Qc_of_Z_inj in E. cbn [length] in E. lia. Qed.

(* ---- weights ---- *)
Lemma weights_given es w : length es = length w -> sum w <> 0 -> exists w', line_weights es (Some w) true = Ok w' /\ length w' = length es /\ normalised w w'.
Proof.
  intros L N. unfold line_weights. rewrite total_sum, (nz_eqb _ N). cbn [bind]. rewrite map_length, L, Nat.eqb_refl. cbn [negb].
  eexists. split; [reflexivity|]. split; [now rewrite map_length|]. unfold normalised. set (s := sum w) in *. split.
  - transitivity (sum (map (fun x => / s * x) w)); [f_equal; apply map_ext; intros; field; exact N|].
    rewrite (sum_scale (fun x => x)), map_id. fold s. field. exact N.
  - clearbody s. clear L. induction w as [|x w IH]; cbn [map]; constructor; [field; exact N|exact IH].
Qed.
Lemma weights_default es : es <> [] -> exists w', line_weights es None true = Ok w' /\ length w' = length es /\ sum w' = 1 /\ forall a b, In a w' -> In b w' -> a = b.
Proof.
  intros N. unfold line_weights. cbn [bind]. rewrite map_length, Nat.eqb_refl. cbn [negb]. eexists. split; [reflexivity|].
  split; [apply map_length|]. destruct es as [|e es]; [contradiction|]. pose proof (qn_nz e es) as Q. split.
  - rewrite sum_const. field. exact Q.
  - intros a b A B. apply in_map_iff in A, B. destruct A as (? & <- & _), B as (? & <- & _). reflexivity.
Qed.
Lemma weights_mismatch es w : length es <> length w -> sum w <> 0 -> line_weights es (Some w) true = Err ValueError.
Proof.
  intros L N. unfold line_weights. rewrite total_sum, (nz_eqb _ N). cbn [bind]. rewrite map_length.
  apply Nat.eqb_neq in L. now rewrite L.
Qed.
Lemma normalised_same w : sum w = 1 -> map (fun x => x / sum w) w = w.
Proof. intros ->. rewrite <- (map_id w) at 2. apply map_ext. intros. field. discriminate. Qed.
Lemma weights_again es w : length es = length w -> sum w = 1 -> line_weights es (Some w) true = Ok w.
Proof.
  intros L N. unfold line_weights. rewrite total_sum, nz_eqb by (rewrite N; discriminate).
  rewrite (normalised_same w N). cbn [bind]. rewrite L, Nat.eqb_refl. reflexivity.
Qed.
Lemma weights_any es weights w : line_weights es weights true = Ok w -> es <> [] -> length w = length es /\ sum w = 1.
Proof.
  intros H N. destruct weights as [v|].
  - destruct (Qc_eqb (sum v) 0) eqn:E.
    + unfold line_weights in H. rewrite total_sum, E in H. discriminate.
    + qc_bool. destruct (Nat.eq_dec (length es) (length v)) as [L|L]; [|rewrite (weights_mismatch es v L E) in H; discriminate].
      destruct (weights_given es v L E) as (w' & H1 & H2 & H3 & _). rewrite H1 in H. assert (w' = w) by congruence. subst. auto.
  - destruct (weights_default es N) as (w' & H1 & H2 & H3 & _). rewrite H1 in H. assert (w' = w) by congruence. subst. auto.
Qed.

(* ---- transmissions and rates ---- *)
Lemma optics_product d e : optics_trans d e = product (map (fun f => f e) (optics d)).
Proof.
  unfold optics_trans. assert (H : forall l t, fold_left (fun t f => t * f e) l t = t * product (map (fun f : Qc -> Qc => f e) l)).
  { induction l as [|f l IH]; intros t; cbn [fold_left map product]; [ring|]. rewrite IH. ring. }
  rewrite H. ring.
Qed.
Lemma source_to_sample d e : source_trans d e = to_sample d e.
Proof. unfold source_trans, to_sample. rewrite optics_product. destruct (before d); [destruct (target d)|]; ring. Qed.
Lemma zip_lines es ws f : length es = length ws -> total (zipmul ws (map f es)) = sum_lines es ws f.
Proof.
  rewrite total_sum. unfold zipmul. revert ws. induction es as [|e es IH]; intros [|w ws] L; try discriminate; [reflexivity|].
  cbn [map combine sum sum_lines fst snd]. rewrite IH by (cbn in L; lia). reflexivity.
Qed.
Lemma zip_lines2 es ws f g : length es = length ws -> total (zipmul (zipmul ws (map f es)) (map g es)) = sum_lines es ws (fun e => f e * g e).
Proof.
  rewrite total_sum. unfold zipmul. revert ws. induction es as [|e es IH]; intros [|w ws] L; try discriminate; [reflexivity|].
  cbn [map combine sum sum_lines fst snd]. rewrite IH by (cbn in L; lia). ring.
Qed.
Lemma sum_lines_ext es ws f g : (forall e, f e = g e) -> sum_lines es ws f = sum_lines es ws g.
Proof. intros H. revert ws. induction es as [|e es IH]; intros [|w ws]; cbn; [reflexivity..|]. now rewrite H, IH. Qed.
Lemma den_is d es ws : length es = length ws -> total (zipmul ws (map (source_trans d) es)) = sum_lines es ws (to_sample d).
Proof. intros L. rewrite zip_lines by exact L. apply sum_lines_ext. intros. apply source_to_sample. Qed.
Lemma spread_one x b : total (spread [x] b) = x * sum b.
Proof. unfold spread. rewrite total_sum, (sum_scale (fun y => y)), map_id. reflexivity. Qed.

Lemma charge_direct d es weights w : line_weights es weights true = Ok w -> es <> [] -> target d = None -> sum_lines es w (to_sample d) <> 0 ->
  charge d es weights = Ok (Some (sum_lines es w (fun e => source_filter d e * det_filter d e) * sum (map (diode_charge d) es) / sum_lines es w (to_sample d))).
Proof.
  intros H N T D. destruct (weights_any _ _ _ H N) as [L _]. unfold charge, detection_rates. rewrite H, T. cbn [bind].
  rewrite spread_one, den_is by auto. rewrite (nz_eqb _ D), zip_lines2 by auto. reflexivity.
Qed.
Lemma charge_one d e weights w : line_weights [e] weights true = Ok w -> target d = None -> to_sample d e <> 0 ->
  charge d [e] weights = Ok (Some (source_filter d e * det_filter d e * diode_charge d e / to_sample d e)).
Proof.
  intros H T D. destruct (weights_any _ _ _ H) as [L S1]; [discriminate|]. destruct w as [|x [|? ?]]; try discriminate L.
  assert (X : x = 1) by (cbn in S1; rewrite <- S1; ring). subst x.
  rewrite (charge_direct d [e] weights [1] H); [|discriminate|exact T|cbn [sum_lines]; intros E; apply D; rewrite <- E; ring].
  apply (f_equal Ok), (f_equal Some). cbn [sum_lines sum map]. generalize dependent (to_sample d e). intros q D. field. intros Z. apply D. rewrite <- Z. ring.
Qed.
(* lines of equal charge: the sum counts them all *)
Lemma charge_counts d es weights w c : line_weights es weights true = Ok w -> es <> [] -> target d = None -> sum_lines es w (to_sample d) <> 0 ->
  Forall (fun e => diode_charge d e = c) es ->
  charge d es weights = Ok (Some (qn es * (sum_lines es w (fun e => source_filter d e * det_filter d e * diode_charge d e) / sum_lines es w (to_sample d)))).
Proof.
  intros H N T D F. rewrite (charge_direct d es weights w H N T D). apply (f_equal Ok), (f_equal Some).
  assert (A : sum (map (diode_charge d) es) = qn es * c).
  { rewrite <- sum_const. f_equal. apply map_ext_in. rewrite Forall_forall in F. exact F. }
  assert (B : sum_lines es w (fun e => source_filter d e * det_filter d e * diode_charge d e) = c * sum_lines es w (fun e => source_filter d e * det_filter d e)).
  { clear - F. revert w. induction es as [|e es IH]; intros [|x w]; cbn [sum_lines]; try ring. inversion F as [|? ? E F']; subst. rewrite (IH F'). ring. }
  rewrite A, B. generalize dependent (sum_lines es w (to_sample d)). intros q D. field. exact D.
Qed.
Lemma charge_target d es weights w s : line_weights es weights true = Ok w -> es <> [] -> target d = Some s -> sum_lines es w (to_sample d) <> 0 ->
  charge d es weights = Ok (Some (sum (map (fun p => snd p * diode_charge d (fst p)) (s (solidangle d) es w)) / sum_lines es w (to_sample d))).
Proof.
  intros H N T D. destruct (weights_any _ _ _ H N) as [L _]. unfold charge, detection_rates. rewrite H, T. cbn [bind].
  rewrite den_is, (nz_eqb _ D) by auto. apply (f_equal Ok), (f_equal Some). f_equal.
  set (l := s (solidangle d) es w). clearbody l. clear. rewrite <- (total_sum (map _ l)).
  assert (Z : total (zipmul (map snd l) (map (diode_charge d) (map fst l))) = total (map (fun p => snd p * diode_charge d (fst p)) l)).
  { unfold zipmul. induction l as [|p l IH]; [reflexivity|]. cbn [map combine total fst snd]. now rewrite IH. }
  destruct l as [|p [|p' l]]; [reflexivity| |exact Z]. unfold spread. reflexivity.
Qed.

(* ---- calibrations ---- *)
Lemma find_combine es vs i e v : NoDup es -> nth_error es i = Some e -> nth_error vs i = Some v -> look_up e (combine es vs) = Some v.
Proof.
  intros ND. revert vs i. induction ND as [|x es NI ND IH]; intros vs [|i] E V; destruct vs as [|y vs]; try discriminate; cbn in *.
  - assert (x = e) by congruence. subst. destruct (Qc_eqb e e) eqn:Z; [congruence|]. qc_bool. contradiction.
  - destruct (Qc_eqb e x) eqn:Z.
    + qc_bool. subst. destruct NI. eapply nth_error_In. exact E.
    + eapply IH; eassumption.
Qed.
Lemma nth_error_same {A} (l l' : list A) : (forall i, nth_error l i = nth_error l' i) -> l = l'.
Proof.
  revert l'. induction l as [|a l IH]; intros [|b l'] H; [reflexivity|discriminate (H 0%nat)|discriminate (H 0%nat)|].
  pose proof (H 0%nat) as H0. cbn in H0. f_equal; [congruence|]. apply IH. intros i. exact (H (S i)).
Qed.
Lemma all_found es vs : NoDup es -> length es = length vs -> all_some (map (fun e => look_up e (combine es vs)) es) = Some vs.
Proof.
  intros ND L. assert (H : map (fun e => look_up e (combine es vs)) es = map Some vs).
  { apply nth_error_same. intros i. rewrite !nth_error_map.
    destruct (nth_error es i) as [e|] eqn:E.
    - destruct (nth_error vs i) as [v|] eqn:V; [|apply nth_error_None in V; assert (nth_error es i <> None) by congruence; apply nth_error_Some in H; lia].
      cbn. f_equal. eapply find_combine; eassumption.
    - apply nth_error_None in E. rewrite L in E. apply nth_error_None in E. rewrite E. reflexivity. }
  rewrite H. clear. induction vs as [|v vs IH]; [reflexivity|]. cbn. now rewrite IH.
Qed.
Lemma simple_count c es weights w : line_weights es weights true = Ok w -> NoDup es -> es <> [] -> Forall (fun x => x <> 0) w ->
  exists t, calibrate_simple c es weights = Ok t /\ charge_simple t es weights = Ok (Some (qn es * c)).
Proof.
  intros H ND N F. destruct (weights_any _ _ _ H N) as [L _]. unfold calibrate_simple. rewrite H. cbn [bind].
  assert (E : existsb (fun x => Qc_eqb x 0) w = false).
  { clear - F. induction F as [|x w P F IH]; [reflexivity|]. cbn. now rewrite (nz_eqb x P), IH. }
  rewrite E. eexists. split; [reflexivity|]. unfold charge_simple. rewrite H. cbn [bind]. rewrite all_found by (auto; now rewrite map_length).
  cbn [option_map]. apply (f_equal Ok), (f_equal Some). unfold qn. rewrite <- L. clear - F. change (Z.of_nat (length w)) with (Z.of_nat (length w)).
  induction F as [|x w P F IH]; [change (Qc_of_Z (Z.of_nat (@length Qc []))) with 0; cbn; ring|].
  unfold zipmul in *. cbn [map combine total fst snd length]. rewrite IH, Nat2Z.inj_succ. unfold Z.succ. rewrite Qc_of_Z_plus, of_Z_1. field. exact P.
Qed.
Lemma rescale a b x c : a <> 0 -> b <> 0 -> x / b <> 0 -> a * (c / (x / b)) / a * x / b = c.
Proof. intros A B X. field. split; [|split]; try assumption. intros ->. apply X. field. exact B. Qed.
Lemma solidangle_calibrated d es weights w s c cs : line_weights es weights true = Ok w -> es <> [] -> target d = Some s -> proportional s ->
  sum_lines es w (to_sample d) <> 0 -> solidangle d <> 0 -> charge d es weights = Ok (Some cs) -> cs <> 0 ->
  exists d', calibrate_solidangle c d es weights = Ok (Some (d', Some c)) /\ charge d' es weights = Ok (Some c) /\ solidangle d' * cs = solidangle d * c.
Proof.
  intros H N T P D SA C CN. destruct (weights_any _ _ _ H N) as [L S1]. pose proof (weights_again es w (eq_sym L) S1) as AG.
  rewrite (charge_target d es weights w s H N T D) in C. assert (C' : sum (map (fun p => snd p * diode_charge d (fst p)) (s (solidangle d) es w)) / sum_lines es w (to_sample d) = cs) by congruence. clear C.
  set (d' := set_solidangle (solidangle d * (c / cs)) d).
  assert (Q : forall v, line_weights es v true = Ok w -> charge d' es v = Ok (Some c)).
  { intros v V. assert (TS : sum_lines es w (to_sample d') = sum_lines es w (to_sample d)) by reflexivity.
    rewrite (charge_target d' es v w s V N T) by (rewrite TS; exact D). rewrite TS. apply (f_equal Ok), (f_equal Some).
    cbn [d' set_solidangle solidangle diode_charge]. rewrite (P _ (solidangle d) es w SA), map_map. cbn [fst snd].
    transitivity (sum (map (fun p => solidangle d * (c / cs) / solidangle d * (snd p * diode_charge d (fst p))) (s (solidangle d) es w)) / sum_lines es w (to_sample d)).
    { f_equal. f_equal. apply map_ext. intros p. ring. }
    rewrite (sum_scale (fun p => snd p * diode_charge d (fst p))). rewrite <- C' in CN |- *.
    apply rescale; assumption. }
  exists d'. split; [|split; [exact (Q _ H)|]].
  - unfold calibrate_solidangle. rewrite H. cbn [bind]. rewrite (charge_target d es (Some w) w s AG N T D). cbn [bind]. rewrite C', (nz_eqb _ CN).
    fold d'. rewrite (Q _ AG). reflexivity.
  - cbn [d' set_solidangle solidangle]. field. exact CN.
Qed.
Lemma solidangle_direct d es weights a : target d = None -> charge (set_solidangle a d) es weights = charge d es weights.
Proof. intros T. unfold charge, detection_rates. cbn [set_solidangle target]. rewrite T. reflexivity. Qed.

Lemma sample_ok d es weights w : line_weights es weights true = Ok w -> es <> [] ->
  (before d = false -> sample_weights false d es weights = Ok (Some w)) /\ sample_weights true d es weights = Ok (Some w) /\
  (before d = true -> sum_lines es w (to_sample d) <> 0 -> exists v, sample_weights false d es weights = Ok (Some v) /\ sum v = 1 /\
     length v = length es /\ forall i e a, nth_error es i = Some e -> nth_error w i = Some a -> exists b, nth_error v i = Some b /\ b * sum_lines es w (to_sample d) = a * to_sample d e).
Proof.
  intros H N. destruct (weights_any _ _ _ H N) as [L _]. unfold sample_weights. rewrite H. cbn [bind]. split; [intros ->; reflexivity|]. split; [reflexivity|].
  intros -> D. cbn [orb negb]. rewrite den_is by auto. rewrite (nz_eqb _ D). eexists. split; [reflexivity|].
  set (z := zipmul w (map (source_trans d) es)). set (t := sum_lines es w (to_sample d)) in *.
  assert (ST : sum z = t) by (rewrite <- total_sum; apply den_is; auto).
  split; [|split].
  - transitivity (sum (map (fun x => / t * x) z)); [f_equal; apply map_ext; intros; field; exact D|].
    rewrite (sum_scale (fun x => x)), map_id, ST. field. exact D.
  - rewrite map_length. unfold z, zipmul. rewrite map_length, combine_length, map_length. lia.
  - intros i e a E A. exists (a * to_sample d e / t). split; [|field; exact D].
    rewrite nth_error_map. unfold z, zipmul. rewrite nth_error_map.
    assert (C : nth_error (combine w (map (source_trans d) es)) i = Some (a, source_trans d e)).
    { clear - E A. revert w i E A. induction es as [|x es IH]; intros [|y w] [|i] E A; try discriminate; cbn in *; [|now apply IH].
      congruence. }
    rewrite C. cbn. now rewrite source_to_sample.
Qed.

(* ---- fit ---- *)
Lemma range_inside lo hi p : in_flux_range lo hi p = true <-> flux_inside lo hi (fst p).
Proof.
  unfold in_flux_range, flux_inside. rewrite andb_true_iff. split.
  - intros [A B]. split; intros v ->; now apply Qc_leb_le.
  - intros [A B]. split; [destruct lo as [a|]|destruct hi as [b|]]; try reflexivity; apply (proj2 (Qc_leb_le _ _)); auto.
Qed.
Lemma linfit_line x y m b : length x = length y -> varied x -> (forall p, In p (combine x y) -> snd p = m * fst p + b) -> linfit x y = Ok (m, b).
Proof. intros L V E. unfold linfit. rewrite (fit_line x y m b L V E). reflexivity. Qed.
Lemma sq_nonneg (a : Qc) : 0 <= a * a. Proof. qcnra. Qed.
Lemma add_nonneg (a b : Qc) : 0 <= a -> 0 <= b -> 0 <= a + b. Proof. intros; qclra. Qed.
Lemma fit0_line x y m : length x = length y -> (exists a, In a x /\ a <> 0) -> (forall p, In p (combine x y) -> snd p = m * fst p) -> linfit0 x y = Ok m.
Proof.
  intros L V E. unfold linfit0. destruct (fit0_defined x y L) as [D _]. destruct (D V) as [m' M]. rewrite M. cbn [bind].
  apply (f_equal Ok). symmetry. apply (fit0_optimal x y m' L M). assert (Z : ssr x y m 0 = 0).
  { unfold ssr. clear - E L. revert y L E. induction x as [|a x IH]; intros [|b y] L E; try discriminate; [reflexivity|]. cbn in *.
    rewrite IH; [|lia|intros; apply E; now right]. rewrite (E (a, b) (or_introl eq_refl) : b = m * a). ring. }
  rewrite Z. unfold ssr. clear. generalize (combine x y). intros l. induction l as [|p l IH]; cbn; [apply Qcle_refl|].
  apply add_nonneg; [apply sq_nonneg|exact IH].
Qed.

Section Fit.
Context (dark : Qc) (lo hi : option Qc) (flux current : list Qc) (L : length flux = length current).
Let pts := filter (in_flux_range lo hi) (combine flux current).
Lemma pts_in p : In p pts <-> In p (combine flux current) /\ flux_inside lo hi (fst p).
Proof. unfold pts. rewrite filter_In, range_inside. reflexivity. Qed.
Lemma comb_pts : combine (map fst pts) (map snd pts) = pts.
Proof. induction pts as [|[a b] l IH]; cbn; congruence. Qed.
Lemma start fixdark : fit_response dark fixdark lo hi flux current =
  match pts with
  | [] => Err RuntimeError
  | [(x0, y0)] => Ok (if Qc_eqb x0 0 then None else Some ((y0 - dark) / x0), None)
  | _ =>
      if fixdark then let! m := linfit0 (map fst pts) (map (fun v => v - dark) (map snd pts)) in Ok (Some m, None)
      else
        let! (m, b) := linfit (map fst pts) (map snd pts) in
        if Qc_ltb b 0 then let! m := linfit0 (map fst pts) (map snd pts) in Ok (Some m, Some 0) else Ok (Some m, Some b)
  end.
Proof. unfold fit_response. rewrite L, Nat.eqb_refl. reflexivity. Qed.
Lemma len_pts : length (map fst pts) = length (map snd pts). Proof. now rewrite !map_length. Qed.

Lemma fit_none fixdark : (forall p, In p (combine flux current) -> ~ flux_inside lo hi (fst p)) -> fit_response dark fixdark lo hi flux current = Err RuntimeError.
Proof.
  intros H. rewrite start. destruct pts as [|p l] eqn:E; [reflexivity|]. exfalso. assert (I : In p pts) by (rewrite E; now left).
  apply pts_in in I. exact (H p (proj1 I) (proj2 I)).
Qed.
(* two points of different flux on a line *)
Lemma fit_free m b : (forall p, In p (combine flux current) -> flux_inside lo hi (fst p) -> snd p = m * fst p + b) ->
  (exists p p', In p (combine flux current) /\ In p' (combine flux current) /\ flux_inside lo hi (fst p) /\ flux_inside lo hi (fst p') /\ fst p <> fst p') ->
  0 <= b -> fit_response dark false lo hi flux current = Ok (Some m, Some b).
Proof.
  intros E (p & p' & P & P' & I & I' & N) B. rewrite start.
  assert (IP : In p pts) by (apply pts_in; auto). assert (IP' : In p' pts) by (apply pts_in; auto).
  assert (F : linfit (map fst pts) (map snd pts) = Ok (m, b)).
  { apply linfit_line; [exact len_pts| |].
    - exists (fst p), (fst p'). repeat split; [now apply in_map|now apply in_map|exact N].
    - rewrite comb_pts. intros r R. apply pts_in in R. apply E; apply R. }
  assert (Z : Qc_ltb b 0 = false) by (destruct (Qc_ltb b 0) eqn:Q; [qc_bool; exfalso; clear - Q B; qclra|reflexivity]).
  rewrite F. cbn [bind]. rewrite Z. destruct pts as [|[x0 y0] [|q l]]; [destruct IP| |reflexivity].
  exfalso. destruct IP as [<- | []], IP' as [<- | []]. now apply N.
Qed.
(* a negative dark current is replaced by zero, with the best line through the origin *)
Lemma fit_negative m b : (forall p, In p (combine flux current) -> flux_inside lo hi (fst p) -> snd p = m * fst p + b) ->
  (exists p p', In p (combine flux current) /\ In p' (combine flux current) /\ flux_inside lo hi (fst p) /\ flux_inside lo hi (fst p') /\ fst p <> fst p') ->
  b < 0 -> exists m', fit_response dark false lo hi flux current = Ok (Some m', Some 0) /\
    forall k, ssr (map fst (filter (in_flux_range lo hi) (combine flux current))) (map snd (filter (in_flux_range lo hi) (combine flux current))) m' 0 <=
              ssr (map fst (filter (in_flux_range lo hi) (combine flux current))) (map snd (filter (in_flux_range lo hi) (combine flux current))) k 0.
Proof.
  intros E (p & p' & P & P' & I & I' & N) B. rewrite start. fold pts.
  assert (IP : In p pts) by (apply pts_in; auto). assert (IP' : In p' pts) by (apply pts_in; auto).
  assert (F : linfit (map fst pts) (map snd pts) = Ok (m, b)).
  { apply linfit_line; [exact len_pts| |].
    - exists (fst p), (fst p'). repeat split; [now apply in_map|now apply in_map|exact N].
    - rewrite comb_pts. intros r R. apply pts_in in R. apply E; apply R. }
  assert (Z : Qc_ltb b 0 = true) by (now apply Qc_ltb_lt).
  assert (NZ : exists a, In a (map fst pts) /\ a <> 0).
  { destruct (Qc_eqb (fst p) 0) eqn:Q; qc_bool; [exists (fst p')|exists (fst p)]; (split; [now apply in_map|congruence]). }
  destruct (fit0_defined _ _ len_pts) as [D _]. destruct (D NZ) as [m' M]. exists m'. split.
  - rewrite F. cbn [bind]. rewrite Z. unfold linfit0. rewrite M. destruct pts as [|[x0 y0] [|q l]]; [destruct IP| |reflexivity].
    exfalso. destruct IP as [<- | []], IP' as [<- | []]. now apply N.
  - intros k. apply (fit0_optimal _ _ m' len_pts M).
Qed.
(* with a known dark current *)
Lemma fit_fixed m fixdark : (forall p, In p (combine flux current) -> flux_inside lo hi (fst p) -> snd p = m * fst p + dark) ->
  (exists p, In p (combine flux current) /\ flux_inside lo hi (fst p) /\ fst p <> 0) ->
  fixdark = true \/ length (filter (fun x => in_flux_range lo hi (x, 0)) flux) = 1%nat -> fit_response dark fixdark lo hi flux current = Ok (Some m, None).
Proof.
  intros E (p & P & I & N) H. rewrite start. assert (IP : In p pts) by (apply pts_in; auto).
  destruct pts as [|[x0 y0] [|q l]] eqn:EP; [destruct IP| |].
  - destruct IP as [<- | []]. cbn [fst] in N. rewrite (nz_eqb _ N). apply (f_equal Ok). f_equal. apply (f_equal Some).
    rewrite (E (x0, y0) P I : y0 = m * x0 + dark). field. exact N.
  - destruct H as [-> | H].
    + rewrite <- EP. rewrite (fit0_line _ _ m); [reflexivity| | |].
      * now rewrite !map_length.
      * exists (fst p). split; [apply in_map; rewrite EP; exact IP|exact N].
      * rewrite map_map. intros r R. assert (CB : combine (map fst pts) (map (fun x => snd x - dark) pts) = map (fun x => (fst x, snd x - dark)) pts) by (clear; induction pts; cbn; congruence).
        rewrite CB in R. apply in_map_iff in R. destruct R as (s & <- & R). apply pts_in in R. cbn [fst snd]. rewrite (E s (proj1 R) (proj2 R)). ring.
    + exfalso. assert (Q : length pts = 1%nat).
      { rewrite <- H. unfold pts. clear - L. revert current L. induction flux as [|a f IH]; intros [|c cs] L; try discriminate; [reflexivity|].
        cbn [combine filter]. assert (C : in_flux_range lo hi (a, c) = in_flux_range lo hi (a, 0)) by reflexivity. rewrite C. destruct (in_flux_range lo hi (a, 0)); cbn [length]; rewrite IH by (cbn in L; lia); reflexivity. }
      rewrite EP in Q. discriminate Q.
Qed.
End Fit.
Lemma fit_length dark fixdark lo hi flux current : length flux <> length current -> fit_response dark fixdark lo hi flux current = Err IndexError.
Proof. intros L. unfold fit_response. apply Nat.eqb_neq in L. now rewrite L. Qed.
