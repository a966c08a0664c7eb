(* C86: conversions between flux and signals of a diode; C87: its gain. *)
From Verif Require Import DiodeModel DiodeSpec DiodeProofs ScalarSpec.
From Coq Require Import Lia.
Local Open Scope Qc_scope.

Theorem C86_conversions_partial : forall d r s f0 i0, works d r s f0 i0 -> forall f i v c, signals d r s f0 i0 f i v c ->
  fluxtocurrent d (Fin f) = Ok (Fin i) /\ currenttoflux d (Fin i) = Ok (Fin f) /\
  currenttovoltage d (Fin i) = Ok (Fin v) /\ conv (op_voltagetocurrent d) (Fin v) = Ok (Fin i) /\
  voltagetocps d (Fin v) = Ok (Fin c) /\ cpstovoltage d (Fin c) = Ok (Fin v) /\
  fluxtovoltage d (Fin f) = Ok (Fin v) /\ voltagetoflux d (Fin v) = Ok (Fin f) /\
  currenttocps d (Fin i) = Ok (Fin c) /\ cpstocurrent d (Fin c) = Ok (Fin i) /\
  fluxtocps d (Fin f) = Ok (Fin c) /\ cpstoflux d (Fin c) = Ok (Fin f).
Proof. exact conversions. Qed.
Print Assumptions C86_conversions_partial.

Theorem C86_counts_partial : forall d r s f0 i0, works d r s f0 i0 -> forall f i v c t, signals d r s f0 i0 f i v c -> t <> 0 ->
  countstocps t (Fin (c * t)) = Ok (Fin c) /\ countstoflux d t (Fin (c * t)) = Ok (Fin f) /\
  conv (op_countstovoltage d t) (Fin (c * t)) = Ok (Fin v).
Proof. exact counts. Qed.
Print Assumptions C86_counts_partial.

(* the flux from a response in any unit *)
Theorem C86_response : forall d r s f0 i0, works d r s f0 i0 -> forall f i v c t, signals d r s f0 i0 f i v c -> (forall x, t = Some x -> x <> 0) ->
  (forall u x, (meant t u Hz /\ x = c) \/ (meant t u Ampere /\ x = i) \/ (meant t u Volt /\ x = v) \/
               (meant t u Counts /\ exists time, t = Some time /\ x = c * time) ->
     responsetoflux d t u (Fin x) = Ok (Fin f) /\ conv (fluxop d t u) (Fin x) = Ok (Fin f)).
Proof. exact response_meant. Qed.
Print Assumptions C86_response.
Theorem C86_response_errors : forall d t u x,
  (u = Other -> responsetoflux d t u x = Err TypeError /\ fluxop d t u = Err TypeError) /\
  (u = Counts -> responsetoflux d None u x = Err RuntimeError /\ fluxop d None u = Err RuntimeError).
Proof. exact unit_errors. Qed.
Print Assumptions C86_response_errors.
Theorem C86_no_oscillator : forall d x t, oscillator d = None -> t <> 0 ->
  voltagetocps d x = Err AttributeError /\ cpstovoltage d x = Err AttributeError /\ currenttocps d x = Err AttributeError /\
  fluxtocps d x = Err AttributeError.
Proof. exact no_oscillator. Qed.
Print Assumptions C86_no_oscillator.

(* counts belonging to flux f during t divide by f t/(Fref tref) *)
Theorem C86_normalise_to_flux : forall d r s f0 i0 t Fref tr, works d r s f0 i0 -> t <> 0 -> Fref <> 0 -> (forall x, tr = Some x -> x <> 0) ->
  exists op, xrfnormop d t Hz Fref tr = Ok (op, Fref, match tr with Some x => x | None => t end) /\
    forall f i v c, signals d r s f0 i0 f i v c -> eval op (Fin (c * t)) = Fin (f * t / (Fref * match tr with Some x => x | None => t end)).
Proof. exact xrfnorm_flux. Qed.
Print Assumptions C86_normalise_to_flux.
Theorem C86_normalise_to_counts : forall d r s f0 i0 t f i v c tr y, works d r s f0 i0 -> t <> 0 -> signals d r s f0 i0 f i v c ->
  ScalarModel.round_sig f 2 = Ok y -> xrfnormop d t Counts (c * t) tr = xrfnormop d t Hz y tr.
Proof. exact xrfnorm_counts. Qed.
Print Assumptions C86_normalise_to_counts.
Theorem C86_normalise_errors : forall d t x tr, (forall u, u <> Hz -> u <> Counts -> exists e, xrfnormop d t u x tr = Err e) /\
  (exists e, xrfnormop d t Hz 0 tr = Err e).
Proof. exact xrfnorm_errors. Qed.
Print Assumptions C86_normalise_errors.

(* after the calibration the dark current gives the measured dark rate *)
Theorem C86_dark_from_rate : forall d r s f0 i0 t u l m, works d r s f0 i0 -> meant t u Hz -> is_median (values l) m -> 0 < s * r ->
  exists j, calibratedark d t u l = Ok {| vmax := vmax d; oscillator := oscillator d; gain := gain d; dark := Fin j; charge := charge d |} /\
    0 <= j /\ (0 <= m -> f0 <= m -> s * (r * j) + f0 = m) /\ (m <= f0 -> 0 <= f0 -> j = 0).
Proof. exact dark_rate_meant. Qed.
Print Assumptions C86_dark_from_rate.
Theorem C86_dark_from_current : forall d t u l m, meant t u Ampere -> is_median (values l) m ->
  exists j, calibratedark d t u l = Ok {| vmax := vmax d; oscillator := oscillator d; gain := gain d; dark := Fin j; charge := charge d |} /\
    (0 <= m -> j = m) /\ (m <= 0 -> j = 0).
Proof. exact dark_current_meant. Qed.
Print Assumptions C86_dark_from_current.
Theorem C86_offset_from_dark : forall d r s f0 i0 t u l m k, works d r s f0 i0 ->
  (meant t u Hz /\ k = 1) \/ (meant t u Counts /\ exists time, t = Some time /\ time <> 0 /\ k * time = 1) -> is_median (values l) m ->
  exists o x, oscillator d = Some o /\
    calibrateF0 d t u l = Ok {| vmax := vmax d; oscillator := Some {| Fmax := Fmax o; F0 := Fin x; Vosc := Vosc o |}; gain := gain d; dark := dark d; charge := charge d |} /\
    0 <= x /\ (0 <= k * m -> s * (r * i0) <= k * m -> s * (r * i0) + x = k * m) /\ (k * m <= s * (r * i0) -> 0 <= s * (r * i0) -> x = 0).
Proof. exact F0_rate_meant. Qed.
Print Assumptions C86_offset_from_dark.

Definition q (n : Z) (k : positive) : Qc := Q2Qc (n # k).
Definition sample : diode :=
  {| vmax := Some (q 10 1); oscillator := Some {| Fmax := q 100 1; F0 := Fin (q 32 1); Vosc := q 10 1 |};
     gain := VperA (q 1000 1); dark := Fin (q 1 1000); charge := q 1 100000 |}.
Lemma sample_works : works sample (q 1000 1) (q 10 1) (q 32 1) (q 1 1000).
Proof.
  split; [left; reflexivity|]. split; [discriminate|]. split; [|split; [discriminate|]; split; [reflexivity|discriminate]].
  eexists. split; [reflexivity|]. cbn [Vosc Fmax F0]. split; [discriminate|]. split; [|reflexivity]. apply Qc_is_canon. vm_compute. reflexivity.
Qed.
(* 500 photons/s: 6 mA, 6 V, 92 counts/s *)
Lemma sample_signals : signals sample (q 1000 1) (q 10 1) (q 32 1) (q 1 1000) (q 500 1) (q 6 1000) (q 6 1) (q 92 1).
Proof. repeat split; apply Qc_is_canon; vm_compute; reflexivity. Qed.
Example C86_sample : fluxtocps sample (Fin (q 500 1)) = Ok (Fin (q 92 1)) /\ countstoflux sample (q 3 1) (Fin (q 92 1 * q 3 1)) = Ok (Fin (q 500 1)).
Proof.
  split; [apply (conversions _ _ _ _ _ sample_works _ _ _ _ sample_signals)|].
  apply (counts _ _ _ _ _ sample_works _ _ _ _ (q 3 1) sample_signals). discriminate.
Qed.
Example C86_normalise_sample : exists op, xrfnormop sample (q 3 1) Hz (q 1000 1) (Some (q 2 1)) = Ok (op, q 1000 1, q 2 1) /\
  eval op (Fin (q 92 1 * q 3 1)) = Fin (q 500 1 * q 3 1 / (q 1000 1 * q 2 1)).
Proof.
  destruct (xrfnorm_flux _ _ _ _ _ (q 3 1) (q 1000 1) (Some (q 2 1)) sample_works) as (op & A & B); [discriminate|discriminate| |].
  - intros x E. assert (x = q 2 1) by congruence. subst x. discriminate.
  - exists op. split; [exact A|]. exact (B _ _ _ _ sample_signals).
Qed.
Example C86_dark_sample : exists j, calibratedark sample None Plain [Some (q 40 1); None; Some (q 52 1); Some (q 55 1)] =
    Ok {| vmax := vmax sample; oscillator := oscillator sample; gain := gain sample; dark := Fin j; charge := charge sample |} /\
  q 10 1 * (q 1000 1 * j) + q 32 1 = q 52 1.
Proof.
  destruct (dark_rate _ _ _ _ _ None Plain [Some (q 40 1); None; Some (q 52 1); Some (q 55 1)] (q 52 1) sample_works eq_refl) as (j & A & _ & B & _).
  - exists [q 40 1; q 52 1; q 55 1]. split; [apply Permutation_refl|]. split; [|left; exists 1%nat; split; reflexivity].
    repeat constructor; discriminate.
  - reflexivity.
  - exists j. split; [exact A|]. apply B; discriminate.
Qed.

(* counts cannot be converted to current or voltage: the operator is a method that is not called, or called with an argument too many *)
Theorem C86_counts_to_current_refuted : exists d r s f0 i0 f i v c t, works d r s f0 i0 /\ signals d r s f0 i0 f i v c /\ t <> 0 /\
  countstocurrent d t (Fin (c * t)) = Err NotImplementedError /\ countstovoltage d t (Fin (c * t)) = Err TypeError.
Proof.
  exists sample, (q 1000 1), (q 10 1), (q 32 1), (q 1 1000), (q 500 1), (q 6 1000), (q 6 1), (q 92 1), (q 3 1).
  split; [exact sample_works|]. split; [exact sample_signals|]. split; [discriminate|]. split; reflexivity.
Qed.
Print Assumptions C86_counts_to_current_refuted.
Theorem C86_dark_from_counts_refuted : forall d t u l, meant (Some t) u Counts -> t <> 0 -> calibratedark d (Some t) u l = Err NotImplementedError.
Proof. exact dark_counts_meant. Qed.
Print Assumptions C86_dark_from_counts_refuted.

(* ---- C87 ---- *)
(* a setting m b^n is chosen that is nearest on a logarithmic scale, an even n when two are as near *)
Theorem C87_round_to_power : forall m b x y, (2 <= b)%Z -> m <> 0 -> 0 < y -> x = m * y ->
  exists n u, power b n u /\ round_gain {| rm := Some m; rbase := Some b |} x = Ok (m * u) /\
    (forall k w, power b k w -> ((k < n)%Z -> u * w <= y * y) /\ ((n < k)%Z -> y * y <= u * w) /\
                                 (k <> n -> u * w = y * y -> Z.even n = true)).
Proof. exact round_gain_power. Qed.
Print Assumptions C87_round_to_power.
Theorem C87_setting_kept : forall m b n u, (2 <= b)%Z -> m <> 0 -> power b n u -> round_gain {| rm := Some m; rbase := Some b |} (m * u) = Ok (m * u).
Proof. exact round_gain_fixed. Qed.
Print Assumptions C87_setting_kept.
Theorem C87_round_to_power_of_base : forall b x, round_gain {| rm := None; rbase := Some b |} x = round_gain {| rm := Some 1; rbase := Some b |} x.
Proof. exact round_gain_base. Qed.
Print Assumptions C87_round_to_power_of_base.
Theorem C87_round_to_multiple : forall m x, m <> 0 -> exists k, round_gain {| rm := Some m; rbase := None |} x = Ok (m * Qc_of_Z k) /\
  exists e, x = m * (Qc_of_Z k + e) /\ - ScalarModel.half <= e /\ e <= ScalarModel.half /\ (e = ScalarModel.half \/ e = - ScalarModel.half -> Z.even k = true).
Proof. exact round_gain_multiple. Qed.
Print Assumptions C87_round_to_multiple.
Theorem C87_no_rounding : forall x, round_gain {| rm := None; rbase := None |} x = Ok x.
Proof. exact round_gain_plain. Qed.
Print Assumptions C87_no_rounding.
Theorem C87_no_setting : forall m b x, m <> 0 -> x / m <= 0 -> round_gain {| rm := Some m; rbase := Some b |} x = Err ValueError.
Proof. exact round_gain_errors. Qed.
Print Assumptions C87_no_setting.

Theorem C87_resistance_and_current : forall d r i v, Rout d = Ok r -> Imax d = Ok i -> vmax d = Some v -> (gain d = VperA 0 -> False) -> r * i = v.
Proof. exact gain_product. Qed.
Print Assumptions C87_resistance_and_current.
Theorem C87_set_resistance : forall rd x d g, gain d = VperA g -> forall y, round_gain rd x = Ok y -> exists d', set_Rout rd x d = Ok d' /\
  d' = {| vmax := vmax d; oscillator := oscillator d; gain := VperA y; dark := dark d; charge := charge d |} /\ Rout d' = Ok y.
Proof. exact set_Rout_V. Qed.
Print Assumptions C87_set_resistance.
Theorem C87_set_resistance_of_current : forall rd x d g v i, gain d = Amps g -> vmax d = Some v -> i * x = v -> x <> 0 -> forall y, round_gain rd i = Ok y -> exists d', set_Rout rd x d = Ok d' /\
  d' = {| vmax := vmax d; oscillator := oscillator d; gain := Amps y; dark := dark d; charge := charge d |} /\ Imax d' = Ok y /\ (y <> 0 -> y = i -> Rout d' = Ok x).
Proof. exact set_Rout_A. Qed.
Print Assumptions C87_set_resistance_of_current.
Theorem C87_set_current : forall rd x d g, gain d = Amps g -> forall y, round_gain rd x = Ok y -> exists d', set_Imax rd x d = Ok d' /\
  d' = {| vmax := vmax d; oscillator := oscillator d; gain := Amps y; dark := dark d; charge := charge d |} /\ Imax d' = Ok y.
Proof. exact set_Imax_A. Qed.
Print Assumptions C87_set_current.
Theorem C87_set_current_of_resistance : forall rd x d g v r, gain d = VperA g -> vmax d = Some v -> r * x = v -> x <> 0 -> forall y, round_gain rd r = Ok y -> exists d', set_Imax rd x d = Ok d' /\
  d' = {| vmax := vmax d; oscillator := oscillator d; gain := VperA y; dark := dark d; charge := charge d |} /\ Rout d' = Ok y /\ (y <> 0 -> y = r -> Imax d' = Ok x).
Proof. exact set_Imax_V. Qed.
Print Assumptions C87_set_current_of_resistance.
Theorem C87_unknown_voltage : forall rd x d, vmax d = None -> (forall g, gain d = Amps g -> Rout d = Err TypeError /\ set_Rout rd x d = Err TypeError) /\
  (forall g, gain d = VperA g -> Imax d = Err TypeError /\ set_Imax rd x d = Err TypeError).
Proof. exact gain_errors. Qed.
Print Assumptions C87_unknown_voltage.

(* the diode is set to resistance r (gain g) while the rates are measured with resistance R, of gain G *)
Theorem C87_gain_recovered_partial : forall rd d r s f0 i0 ub R G (fs : list Qc), works d r s f0 i0 -> round_gain rd G = Ok G ->
  match gain d with VperA g => G * r = g * R | Amps g => G * R = g * r end -> R <> 0 ->
  (exists f, In f fs /\ charge d * f + i0 <> 0) ->
  forall before, (meant None ub Hz /\ before = map Fin fs) \/ (meant None ub Ampere /\ before = map (fun f => Fin (charge d * f + i0)) fs) \/
                 (meant None ub Volt /\ before = map (fun f => Fin (r * (charge d * f + i0))) fs) ->
  gainfromresponse rd d None Hz (map (fun f => Fin (s * (R * (charge d * f + i0)) + f0)) fs) ub before = Ok (Some (Fin G)).
Proof. exact recover_meant. Qed.
Print Assumptions C87_gain_recovered_partial.
(* the gain is never given up: the test np.isfinite(r and r > 0) always succeeds *)
Theorem C87_never_none : forall rd d t ua a ub b, gainfromresponse rd d t ua a ub b <> Ok None.
Proof. exact never_none. Qed.
Print Assumptions C87_never_none.
Theorem C87_negative_gain_refuted : exists d, works d (q 1000 1) (q 10 1) (q 32 1) (q 1 1000) /\
  gainfromresponse {| rm := None; rbase := None |} d None Hz [Fin (q 2 1)] Hz [Fin (q 500 1)] = Ok (Some (Fin (q (-500) 1))) /\
  gainfromresponse {| rm := None; rbase := None |} d None Hz [NaN] Hz [Fin (q 500 1)] = Ok (Some NaN).
Proof.
  exists sample. split; [exact sample_works|]. split; [|vm_compute; reflexivity].
  match goal with |- ?a = _ => let b := eval vm_compute in a in change a with b end. apply (f_equal Ok), (f_equal Some), (f_equal Fin). apply Qc_is_canon. vm_compute. reflexivity.
Qed.
Print Assumptions C87_negative_gain_refuted.
Theorem C87_gain_from_counts_refuted : forall rd d t ua a ub b, meant (Some t) ua Counts -> gainfromresponse rd d (Some t) ua a ub b = Err TypeError.
Proof. exact gain_counts_meant. Qed.
Print Assumptions C87_gain_from_counts_refuted.

Lemma power_example : power 10 (-3) (q 1 1000) /\ power 10 5 (q 100000 1).
Proof. split; [right|left]; (split; [lia|]); apply Qc_is_canon; vm_compute; reflexivity. Qed.
Definition opt_is (r : result Qc) (x : Q) : bool := match r with Ok y => Qc_eqb y (Q2Qc x) | Err _ => false end.
Example C87_settings : opt_is (round_gain {| rm := None; rbase := Some 10%Z |} (q 40000 1)) 100000 = true /\
  opt_is (round_gain {| rm := None; rbase := Some 10%Z |} (q 30000 1)) 10000 = true /\
  opt_is (round_gain {| rm := Some (q 21 10); rbase := Some 10%Z |} (q 1 700)) (21 # 10000) = true /\
  opt_is (round_gain {| rm := Some (q 3 1); rbase := None |} (q 10 1)) 9 = true.
Proof. vm_compute. repeat split. Qed.
(* the gain is 10^5 V/A instead of 10^3 V/A; without beam and dark current the second rate is not used *)
Example C87_recovered : gainfromresponse {| rm := None; rbase := Some 10%Z |} sample None Hz
  (map (fun f => Fin (q 10 1 * (q 100000 1 * (charge sample * f + q 1 1000)) + q 32 1)) [q 500 1; q (-100) 1]) Hz (map Fin [q 500 1; q (-100) 1]) = Ok (Some (Fin (q 100000 1))).
Proof.
  apply (recover {| rm := None; rbase := Some 10%Z |} sample _ _ _ _ Hz (q 100000 1) (q 100000 1) [q 500 1; q (-100) 1] sample_works).
  - rewrite round_gain_base. transitivity (round_gain {| rm := Some 1; rbase := Some 10%Z |} (1 * q 100000 1)); [f_equal; ring|].
    transitivity (Ok (1 * q 100000 1)); [apply (round_gain_fixed _ _ 5); [lia|discriminate|apply power_example]|apply (f_equal Ok); ring].
  - cbn [gain sample]. ring.
  - discriminate.
  - exists (q 500 1). split; [now left|]. discriminate.
  - left. split; reflexivity.
Qed.
