(* C88: the charge per photon of a diode and its calibration. *)
From Verif Require Import ChargeModel ChargeSpec ChargeProofs FitSpec.
Local Open Scope Qc_scope.

Theorem C88_weights : forall es w, length es = length w -> sum w <> 0 -> exists w', line_weights es (Some w) true = Ok w' /\ length w' = length es /\ normalised w w'.
Proof. exact weights_given. Qed.
Print Assumptions C88_weights.
Theorem C88_default_weights : forall es, es <> [] -> exists w', line_weights es None true = Ok w' /\ length w' = length es /\ sum w' = 1 /\ forall a b, In a w' -> In b w' -> a = b.
Proof. exact weights_default. Qed.
Print Assumptions C88_default_weights.
Theorem C88_weights_mismatch : forall es w, length es <> length w -> sum w <> 0 -> line_weights es (Some w) true = Err ValueError.
Proof. exact weights_mismatch. Qed.
Print Assumptions C88_weights_mismatch.

(* the weights at the sample *)
Theorem C88_sample_weights : forall d es weights w, line_weights es weights true = Ok w -> es <> [] ->
  (before d = false -> sample_weights false d es weights = Ok (Some w)) /\ sample_weights true d es weights = Ok (Some w) /\
  (before d = true -> sum_lines es w (to_sample d) <> 0 -> exists v, sample_weights false d es weights = Ok (Some v) /\ sum v = 1 /\
     length v = length es /\ forall i e a, nth_error es i = Some e -> nth_error w i = Some a -> exists b, nth_error v i = Some b /\ b * sum_lines es w (to_sample d) = a * to_sample d e).
Proof. exact sample_ok. Qed.
Print Assumptions C88_sample_weights.

(* one line, detected directly *)
Theorem C88_charge_one_line_partial : forall d e weights w, line_weights [e] weights true = Ok w -> target d = None -> to_sample d e <> 0 ->
  charge d [e] weights = Ok (Some (source_filter d e * det_filter d e * diode_charge d e / to_sample d e)).
Proof. exact charge_one. Qed.
Print Assumptions C88_charge_one_line_partial.
(* any number of lines, by a secondary target *)
Theorem C88_charge_target : forall d es weights w s, line_weights es weights true = Ok w -> es <> [] -> target d = Some s -> sum_lines es w (to_sample d) <> 0 ->
  charge d es weights = Ok (Some (sum (map (fun p => snd p * diode_charge d (fst p)) (s (solidangle d) es w)) / sum_lines es w (to_sample d))).
Proof. exact charge_target. Qed.
Print Assumptions C88_charge_target.
(* n lines of the same charge, detected directly: n times the charge *)
Theorem C88_charge_many_lines_refuted : forall d es weights w c, line_weights es weights true = Ok w -> es <> [] -> target d = None -> sum_lines es w (to_sample d) <> 0 ->
  Forall (fun e => diode_charge d e = c) es ->
  charge d es weights = Ok (Some (qn es * (sum_lines es w (fun e => source_filter d e * det_filter d e * diode_charge d e) / sum_lines es w (to_sample d)))).
Proof. exact charge_counts. Qed.
Print Assumptions C88_charge_many_lines_refuted.

Definition q (n : Z) (k : positive) : Qc := Q2Qc (n # k).
Definition sample (t : option (Qc -> list Qc -> list Qc -> list (Qc * Qc))) : device :=
  {| before := true; optics := [fun _ => q 1 2]; source_filter := fun _ => q 4 5; det_filter := fun _ => q 3 4; diode_trans := fun _ => q 1 3;
     target_trans := fun e => e / (e + 1); target := t; solidangle := q 1 10; diode_charge := fun e => q 2000 1 |}.
Definition opt_is (r : result (option Qc)) (x : Q) : bool := match r with Ok (Some y) => Qc_eqb y (Q2Qc x) | _ => false end.
(* 3/5 of the photons are detected, 1/10 reaches the sample: 12000 per photon, and 24000 for two lines *)
Example C88_lines : opt_is (charge (sample None) [q 5 1] None) 12000 = true /\
  opt_is (charge (sample None) [q 5 1; q 7 1] (Some [q 1 1; q 3 1])) 24000 = true.
Proof. vm_compute. split; reflexivity. Qed.
Example C88_lines_meets : exists w, line_weights [q 5 1; q 7 1] (Some [q 1 1; q 3 1]) true = Ok w /\ sum_lines [q 5 1; q 7 1] w (to_sample (sample None)) <> 0.
Proof.
  eexists. split; [vm_compute; reflexivity|]. intros Z. apply (f_equal this) in Z. vm_compute in Z. discriminate Z.
Qed.

(* simple calibration *)
Theorem C88_simple_many_lines_refuted : forall c es weights w, line_weights es weights true = Ok w -> NoDup es -> es <> [] -> Forall (fun x => x <> 0) w ->
  exists t, calibrate_simple c es weights = Ok t /\ charge_simple t es weights = Ok (Some (qn es * c)).
Proof. exact simple_count. Qed.
Print Assumptions C88_simple_many_lines_refuted.
Example C88_simple : match calibrate_simple (q 50 1) [q 5 1; q 7 1] None with Ok t => opt_is (charge_simple t [q 5 1; q 7 1] None) 100 | Err _ => false end = true /\
  match calibrate_simple (q 50 1) [q 5 1] None with Ok t => opt_is (charge_simple t [q 5 1] None) 50 | Err _ => false end = true.
Proof. vm_compute. split; reflexivity. Qed.
(* calibration of the solid angle *)
Theorem C88_solidangle : forall d es weights w s c cs, line_weights es weights true = Ok w -> es <> [] -> target d = Some s -> proportional s ->
  sum_lines es w (to_sample d) <> 0 -> solidangle d <> 0 -> charge d es weights = Ok (Some cs) -> cs <> 0 ->
  exists d', calibrate_solidangle c d es weights = Ok (Some (d', Some c)) /\ charge d' es weights = Ok (Some c) /\ solidangle d' * cs = solidangle d * c.
Proof. exact solidangle_calibrated. Qed.
Print Assumptions C88_solidangle.
(* without secondary target the charge does not depend on the solid angle, its calibration has no effect *)
Theorem C88_solidangle_direct_refuted : forall d es weights a, target d = None -> charge (set_solidangle a d) es weights = charge d es weights.
Proof. exact solidangle_direct. Qed.
Print Assumptions C88_solidangle_direct_refuted.
(* a target with one fluorescence line *)
Definition fluorescence (a : Qc) (es ws : list Qc) : list (Qc * Qc) := [(q 3 1, a * sum ws)].
Example C88_proportional : proportional fluorescence.
Proof. intros a b es ws N. unfold fluorescence. cbn [map fst snd]. f_equal. f_equal. field. exact N. Qed.
Example C88_solidangle_sample :
  match calibrate_solidangle (q 7000 1) (sample (Some fluorescence)) [q 5 1; q 7 1] (Some [q 1 1; q 3 1]) with
  | Ok (Some (d', Some c)) => Qc_eqb c (q 7000 1) && opt_is (charge d' [q 5 1; q 7 1] (Some [q 1 1; q 3 1])) 7000
  | _ => false
  end = true.
Proof. vm_compute. reflexivity. Qed.

(* calibration against a known flux *)
Theorem C88_fit_response : forall dark lo hi flux current, length flux = length current ->
  forall m b, (forall p, In p (combine flux current) -> flux_inside lo hi (fst p) -> snd p = m * fst p + b) ->
  (exists p p', In p (combine flux current) /\ In p' (combine flux current) /\ flux_inside lo hi (fst p) /\ flux_inside lo hi (fst p') /\ fst p <> fst p') ->
  0 <= b -> fit_response dark false lo hi flux current = Ok (Some m, Some b).
Proof. exact fit_free. Qed.
Print Assumptions C88_fit_response.
Theorem C88_fit_negative_dark : forall dark lo hi flux current, length flux = length current ->
  forall m b, (forall p, In p (combine flux current) -> flux_inside lo hi (fst p) -> snd p = m * fst p + b) ->
  (exists p p', In p (combine flux current) /\ In p' (combine flux current) /\ flux_inside lo hi (fst p) /\ flux_inside lo hi (fst p') /\ fst p <> fst p') ->
  b < 0 -> exists m', fit_response dark false lo hi flux current = Ok (Some m', Some 0) /\
    forall k, ssr (map fst (filter (in_flux_range lo hi) (combine flux current))) (map snd (filter (in_flux_range lo hi) (combine flux current))) m' 0 <=
              ssr (map fst (filter (in_flux_range lo hi) (combine flux current))) (map snd (filter (in_flux_range lo hi) (combine flux current))) k 0.
Proof. exact fit_negative. Qed.
Print Assumptions C88_fit_negative_dark.
Theorem C88_flux_range : forall lo hi p, in_flux_range lo hi p = true <-> flux_inside lo hi (fst p).
Proof. exact range_inside. Qed.
Print Assumptions C88_flux_range.
Theorem C88_fit_fixed_dark : forall dark lo hi flux current, length flux = length current ->
  forall m fixdark, (forall p, In p (combine flux current) -> flux_inside lo hi (fst p) -> snd p = m * fst p + dark) ->
  (exists p, In p (combine flux current) /\ flux_inside lo hi (fst p) /\ fst p <> 0) ->
  fixdark = true \/ length (filter (fun x => in_flux_range lo hi (x, 0)) flux) = 1%nat -> fit_response dark fixdark lo hi flux current = Ok (Some m, None).
Proof. exact fit_fixed. Qed.
Print Assumptions C88_fit_fixed_dark.
Theorem C88_fit_no_points : forall dark lo hi flux current, length flux = length current ->
  forall fixdark, (forall p, In p (combine flux current) -> ~ flux_inside lo hi (fst p)) -> fit_response dark fixdark lo hi flux current = Err RuntimeError.
Proof. exact fit_none. Qed.
Print Assumptions C88_fit_no_points.
Definition fit_is (r : result (option Qc * option Qc)) (m : Q) (b : option Q) : bool :=
  match r with
  | Ok (Some x, y) => Qc_eqb x (Q2Qc m) && match y, b with Some y, Some b => Qc_eqb y (Q2Qc b) | None, None => true | _, _ => false end
  | _ => false
  end.
(* the point of flux 100 is not used *)
Example C88_fit_sample :
  fit_is (fit_response 0 false None (Some (q 50 1)) [q 1 1; q 100 1; q 3 1] [q 5 1; q 1 1; q 9 1]) 2 (Some 3%Q) = true /\
  fit_is (fit_response (q 1 1) false None (Some (q 50 1)) [q 1 1; q 100 1] [q 5 1; q 1 1]) 4 None = true /\
  fit_is (fit_response (q 1 1) true None None [q 1 1; q 2 1] [q 5 1; q 9 1]) 4 None = true /\
  fit_is (fit_response 0 false None None [q 1 1; q 2 1] [q 0 1; q 2 1]) (4 # 5) (Some 0%Q) = true.
Proof. vm_compute. repeat split. Qed.
