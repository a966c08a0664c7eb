(* C79: the noise calculus gives the moments of the random variables it stands for, and its inverses undo it.
   C80: the simulation of a full-field measurement. *)
From Verif Require Import NoiseModel NoiseSpec NoiseProofs.
Local Open Scope Qc_scope.

(* ---- C79 ---- *)
(* the sum of a random number of independent terms *)
Theorem C79_compound : forall N X, proper (numbers N) -> proper X -> compound (moments (numbers N)) (moments X) true = Ok (moments (random_sum N X)).
Proof. exact compound_correct. Qed.
Print Assumptions C79_compound.
Definition q (a : Z) (b : positive) : Qc := Q2Qc (a # b).
Ltac num := vm_compute; repeat first [apply (f_equal Ok)|apply (f_equal Noisy)|apply (f_equal Plain)|apply (f_equal2 pair)|apply Qc_is_canon]; reflexivity.
Example C79_compound_case : let N := [(0%nat, q 1 4); (1%nat, q 1 4); (3%nat, q 1 2)] in let X := [(0, q 1 2); (q 2 1, q 1 2)] in
  proper (numbers N) /\ proper X /\ length (random_sum N X) = 11%nat /\ moments (random_sum N X) = (q 7 4, q 55 16).
Proof.
  cbv zeta. assert (P : forall d, forallb (fun e => Qc_leb 0 (snd e)) d = true -> Qc_eqb (total (fun _ => 1) d) 1 = true -> proper d).
  { intros d A B. split; [|now apply Qc_eqb_spec]. apply Forall_forall. intros e I. rewrite forallb_forall in A. apply Qc_leb_le. now apply A. }
  split; [apply P; vm_compute; reflexivity|]. split; [apply P; vm_compute; reflexivity|]. split; [vm_compute; reflexivity|]. apply (f_equal2 pair); apply Qc_is_canon; vm_compute; reflexivity.
Qed.
(* the sum of a fixed number of independent terms *)
Theorem C79_repeat : forall n X, proper X -> repeat (Qc_of_Z (Z.of_nat n)) (moments X) true = Ok (moments (sum_of n X)).
Proof. exact repeat_correct. Qed.
Print Assumptions C79_repeat.
Theorem C79_bernouilli : forall p, 0 <= p -> p <= 1 -> proper (bernouilli_dist p) /\ bernouilli p = Ok (moments (bernouilli_dist p)).
Proof. exact bernouilli_correct. Qed.
Print Assumptions C79_bernouilli.
(* the inverses of the sum and the difference of independent variables *)
Theorem C79_reverse_add : forall X Y, proper X -> proper Y -> reverse_add (moments (sum X Y)) (moments Y) = Ok (moments X).
Proof. exact reverse_add_correct. Qed.
Print Assumptions C79_reverse_add.
Theorem C79_reverse_sub : forall X Y, proper X -> proper Y -> reverse_sub (moments (combine Qcminus X Y)) (moments Y) = Ok (moments X).
Proof. exact reverse_sub_correct. Qed.
Print Assumptions C79_reverse_sub.
(* the inverses of the product and the quotient, to first order *)
Theorem C79_reverse_mult : forall X Y, E Y <> 0 -> 0 <= VAR X -> reverse_mult (E X * E Y, E Y * E Y * VAR X + E X * E X * VAR Y) Y = Ok X.
Proof. exact reverse_mult_back. Qed.
Print Assumptions C79_reverse_mult.
Theorem C79_reverse_div : forall X Y, E Y <> 0 -> 0 <= VAR X -> reverse_div (E X / E Y, VAR X / (E Y * E Y) + E X * E X * VAR Y / (E Y * E Y * (E Y * E Y))) Y = Ok X.
Proof. exact reverse_div_back. Qed.
Print Assumptions C79_reverse_div.
(* compounding backward undoes compounding forward, and the other way round *)
Theorem C79_back : forall N X Y, E X <> 0 -> 0 <= VAR N -> compound N X true = Ok Y -> compound Y X false = Ok N.
Proof. exact compound_back. Qed.
Print Assumptions C79_back.
Theorem C79_forth : forall N X Y, 0 <= VAR N -> compound N X false = Ok Y -> compound Y X true = Ok N.
Proof. exact compound_forth. Qed.
Print Assumptions C79_forth.
Theorem C79_repeat_back : forall n X, 0 < n -> 0 <= VAR X -> exists Y, repeat n X true = Ok Y /\ repeat n Y false = Ok X.
Proof. exact repeat_back. Qed.
Print Assumptions C79_repeat_back.
Example C79_back_case : compound (q 100 1, q 100 1) (q 1 2, q 1 4) true = Ok (q 50 1, q 50 1) /\ compound (q 50 1, q 50 1) (q 1 2, q 1 4) false = Ok (q 100 1, q 100 1)
  /\ compound (q 50 1, q 5 1) (q 1 2, q 1 4) false = Err ValueError.
Proof. split; [num|split; [num|reflexivity]]. Qed.
(* selecting part of a Poisson process leaves a Poisson process *)
Theorem C79_poisson : forall l p, 0 <= l -> 0 <= p -> p <= 1 -> exists N X, poisson l = Ok N /\ bernouilli p = Ok X /\ compound N X true = poisson (l * p).
Proof. exact selection_poisson. Qed.
Print Assumptions C79_poisson.
(* selecting twice is selecting with the product of the probabilities *)
Theorem C79_selection : forall p r N X Y Z, bernouilli p = Ok X -> bernouilli r = Ok Y -> bernouilli (p * r) = Ok Z -> 0 <= VAR N -> 0 <= E N ->
  exists M, compound N X true = Ok M /\ compound M Y true = compound N Z true.
Proof. exact selection_twice. Qed.
Print Assumptions C79_selection.
(* any cascade is one process *)
Theorem C79_cascade : forall N X Y M P, compound N X true = Ok M -> compound X Y true = Ok P -> compound M Y true = compound N P true.
Proof. exact compound_assoc. Qed.
Print Assumptions C79_cascade.
Example C79_cascade_case : compound (q 10 1, q 10 1) (q 1 2, q 1 4) true = Ok (q 5 1, q 5 1) /\ compound (q 1 2, q 1 4) (q 3 1, q 3 1) true = Ok (q 3 2, q 15 4).
Proof. split; num. Qed.

(* ---- C80 ---- *)
Definition light : setup :=
  {| sample := Some (q 1 2); absorbed := q 1 4; gain := q 30 1; lens_transmission := q 1 10; lightyield := q 2 1;
     cam := {| etoDU := q 5 1; qe := q 7 10; DUoffset := q 100 1; darkcurrent := q 2 1; readoutnoise := q 3 1 |} |}.
Example C80_light : proper_setup light.
Proof. assert (P : forall a, Qc_ltb 0 a && Qc_leb a 1 = true -> probability a) by (intros a H; apply andb_prop in H as [A B]; split; [now apply Qc_ltb_lt|now apply Qc_leb_le]).
  split; [intros p [= <-]; apply P; vm_compute; reflexivity|]. split; [apply P; vm_compute; reflexivity|]. split; [apply Qc_ltb_lt; vm_compute; reflexivity|]. split; [apply P; vm_compute; reflexivity|]. split; [apply Qc_ltb_lt; vm_compute; reflexivity|].
  split; [apply Qc_ltb_lt; vm_compute; reflexivity|]. split; [apply Qc_ltb_lt; vm_compute; reflexivity|apply Qc_leb_le; vm_compute; reflexivity].
Qed.
(* the chain succeeds, its mean is that of the noiseless chain, and the backward chain recovers the incoming photons *)
Theorem C80_chain : forall s N t n inside approx, proper_setup s -> sound N -> 0 < n -> exists Y, propagate s N t n inside true approx = Ok Y /\ kind Y = kind N
  /\ value Y = n * ((value N * factor s inside * qe (cam s) + darkcurrent (cam s) * t) * etoDU (cam s) + DUoffset (cam s))
  /\ (approx = false -> forall b, propagate s Y t n inside false b = Ok N).
Proof. exact chain_round. Qed.
Print Assumptions C80_chain.
Example C80_chain_case : exists Y, propagate light (Noisy (q 1000 1, q 1000 1)) (q 1 2) (q 4 1) true true false = Ok (Noisy Y) /\ E Y = q 10920 1
  /\ propagate light (Noisy Y) (q 1 2) (q 4 1) true false false = Ok (Noisy (q 1000 1, q 1000 1)) /\ propagate light (Plain (q 1000 1)) (q 1 2) (q 4 1) true true false = Ok (Plain (q 10920 1)).
Proof. eexists. split; [vm_compute; reflexivity|]. split; [num|]. split; num. Qed.
(* the noise added by the camera *)
Theorem C80_camera : forall c e v t n b, proper_camera c -> 0 <= e -> 0 <= v -> 0 <= n ->
  camera_propagate c (Noisy (e, v)) t n true b = Ok (Noisy (n * ((e * qe c + darkcurrent c * t) * etoDU c + DUoffset c),
    n * (((if b then e * qe c else v * qe c * qe c + qe c * e) + darkcurrent c * t * t + readoutnoise c * readoutnoise c) * (etoDU c * etoDU c)))).
Proof. exact camera_forward. Qed.
Print Assumptions C80_camera.
(* the dark electrons collected in t seconds are Poisson distributed, but their variance grows with the square of the time *)
Theorem C80_dark_refuted : exists c t Y P, proper_camera c /\ DUoffset c = 0 /\ readoutnoise c = 0 /\ etoDU c = 1
  /\ camera_propagate c (Noisy (0, 0)) t 1 true false = Ok (Noisy Y) /\ poisson (darkcurrent c * t) = Ok P /\ E Y = E P /\ VAR Y <> VAR P.
Proof. exact dark_noise. Qed.
Print Assumptions C80_dark_refuted.
(* the transmission derived from a simulated measurement is that of the sample, with or without noise *)
Theorem C80_transmission : forall s flux td nd tf nf ndark noise, proper_setup s -> 0 < flux -> 0 < td -> 0 < tf -> 0 < nd -> 0 < nf -> 0 < ndark ->
  exists N F D D0, measurement s flux td nd tf nf ndark noise = Ok (N, F, D, D0)
  /\ transmission (value N) (value F) (value D) (value D0) td nd tf nf ndark = Ok (match sample s with Some p => p | None => 1 end).
Proof. exact measurement_transmission. Qed.
Print Assumptions C80_transmission.
(* without dark frames the measurement succeeds and the transmission divides by zero *)
Theorem C80_nodark_refuted : forall s flux td nd tf nf noise, proper_setup s -> 0 <= flux -> 0 <= td -> 0 <= tf -> 0 < nd -> 0 < nf ->
  exists N F D D0, measurement s flux td nd tf nf 0 noise = Ok (N, F, D, D0) /\ transmission (value N) (value F) (value D) (value D0) td nd tf nf 0 = Err ZeroDivisionError.
Proof. exact nodark_fails. Qed.
Print Assumptions C80_nodark_refuted.
(* fluxfromflat inverts the image of the photons that arrive during one frame *)
Theorem C80_flux : forall s flux t n, proper_setup s -> 0 <= flux -> 0 < t -> 0 < n -> exists Y, propagate s (Plain (flux * t)) t n false true false = Ok (Plain Y) /\ fluxfromflat s Y t n = Ok flux.
Proof. exact flux_of_photons. Qed.
Print Assumptions C80_flux.
(* flatfromflux forgets the frame time: the flux it is given comes back divided by it *)
Theorem C80_flat_refuted : forall s flux t n, proper_setup s -> 0 <= flux -> 0 < t -> 0 < n -> exists Y, flatfromflux s flux t n = Ok (Plain Y) /\ fluxfromflat s Y t n = Ok (flux / t).
Proof. exact flux_of_flat. Qed.
Print Assumptions C80_flat_refuted.
Example C80_flat_case : exists Y, flatfromflux light (q 1000 1) (q 1 2) (q 4 1) = Ok (Plain Y) /\ fluxfromflat light Y (q 1 2) (q 4 1) = Ok (q 2000 1).
Proof. eexists. split; [vm_compute; reflexivity|num]. Qed.
(* the number of frames fills the time, if the flat frames last as long as the data frames *)
Theorem C80_frames : forall T td tf f nd nf, 0 < td -> getnframes T td tf f = Ok (nd, nf) -> (1 <= nd)%Z /\ (2 <= nf)%Z /\ Z.Even nf
  /\ (within (Qc_of_Z nd * td) (T * (1 - f)) (td * Q2Qc (1#2)) \/ nd = 1%Z /\ T * (1 - f) <= td * Q2Qc (1#2))
  /\ (within (Qc_of_Z nf * td) (T * f) td \/ nf = 2%Z /\ T * f <= td).
Proof. exact frames. Qed.
Print Assumptions C80_frames.
(* but the time of a flat frame is not used *)
Theorem C80_frames_refuted : exists T td tf f nd nf, getnframes T td tf f = Ok (nd, nf) /\ 0 < td /\ 0 < tf /\ within f (Q2Qc (1#2)) (Q2Qc (1#4))
  /\ ~ within (Qc_of_Z nf * tf) (T * f) (T * Q2Qc (1#4)) /\ (forall tf', getnframes T td tf' f = getnframes T td tf f).
Proof. exact flat_time. Qed.
Print Assumptions C80_frames_refuted.
