(* C84: the attenuators of a detector (detectors/base.py). *)
From Coq Require Import String Reals Lra.
From Verif Require Import DetOptics DetSpec DetProofs DetOpticsProofs.

(* a name is that of a beam filter if it is "beamfilter" in any case, followed by a number *)
Theorem C84_names : forall n, isbeamfilter n false = true <-> is_beam n.
Proof. exact beam_spec. Qed.
Print Assumptions C84_names.
Example C84_names_ex : is_beam (txt "BEAMfilter07") /\ ~ is_beam (txt "BeamFilter") /\ ~ is_beam (txt "BeamFilter1b") /\ ~ is_beam (txt "cover").
Proof. rewrite <- !C84_names. vm_compute. repeat split; discriminate. Qed.

(* the beam filters, with and without the atmosphere, and the detector filters with the atmosphere: in order, none missing *)
Theorem C84_lists : forall A (d : det A), select is_beam (attenuators d) (beamfilters false d) /\ select (fun n => is_beam n \/ n = ATMOSPHERE) (attenuators d) (beamfilters true d)
  /\ select (fun n => ~ is_beam n /\ n <> DETECTOR) (attenuators d) (detectorfilters false d).
Proof. exact lists_spec. Qed.
Print Assumptions C84_lists.
(* include_atmosphere=True leaves the atmosphere out of the detector filters, include_atmosphere=False has it *)
Theorem C84_atmosphere : forall A (d : det A), select (fun n => ~ is_beam n /\ n <> DETECTOR /\ n <> ATMOSPHERE) (attenuators d) (detectorfilters true d).
Proof. exact atmosphere_left_out. Qed.
Print Assumptions C84_atmosphere.
Theorem C84_atmosphere_refuted : forall A (a : A), exists d, around d = Some a /\ detectorfilters true d = [] /\ detectorfilters false d = [a].
Proof. exact atmosphere_witness. Qed.
Print Assumptions C84_atmosphere_refuted.
Example C84_lists_ex : let d := {| own := [(txt "window", 1); (DETECTOR, 2); (txt "beamfilter3", 3)]; around := Some 4 |} in
  detectorfilters false d = [1; 4] /\ detectorfilters true d = [1] /\ beamfilters false d = [3] /\ beamfilters true d = [3; 4] /\ good d.
Proof. vm_compute. repeat split. repeat constructor; cbn; intuition discriminate. Qed.

(* the material is the attenuator with the name of the detector itself *)
Theorem C84_material : forall A (d : det A), good d -> (forall a, material d = Ok a <-> has d DETECTOR a) /\ ((forall a, ~ has d DETECTOR a) <-> material d = Err KeyError) /\ (hasmaterial d = true <-> exists a, has d DETECTOR a).
Proof. exact material_spec. Qed.
Print Assumptions C84_material.
Example C84_material_ex : let d := {| own := [(txt "window", 1); (DETECTOR, 2)]; around := Some 4 |} in good d /\ material d = Ok 2.
Proof. split; [|reflexivity]. unfold good. cbn. repeat constructor; cbn; intuition discriminate. Qed.

(* a beam filter with a name of its own: at the end if the name is new, in place of the old one otherwise *)
Theorem C84_named : forall A (d : det A) n a, is_beam n -> exists d', addbeamfilter (Some n) a d = Ok d' /\ (~ known d n -> beamfilters false d' = beamfilters false d ++ [a]) /\ (forall b, detectorfilters b d' = detectorfilters b d)
  /\ (forall k, lookup chars_eqb k (attenuators d') = if chars_eqb k n then Some a else lookup chars_eqb k (attenuators d)) /\ (good d -> good d').
Proof. exact @named_spec. Qed.
Print Assumptions C84_named.
(* names of the wrong group are refused *)
Theorem C84_refused : forall A (d : det A) n a, (n <> [] -> ~ is_beam n -> addbeamfilter (Some n) a d = Err ValueError) /\ (is_beam n -> adddetectorfilter n a d = Err ValueError).
Proof. exact @refused. Qed.
Print Assumptions C84_refused.
Theorem C84_detector_filter : forall A (d : det A) n a, ~ is_beam n -> (n <> ATMOSPHERE \/ around d = None) -> exists d', adddetectorfilter n a d = Ok d' /\ beamfilters false d' = beamfilters false d
  /\ forall k, lookup chars_eqb k (attenuators d') = if chars_eqb k n then Some a else lookup chars_eqb k (attenuators d).
Proof. exact @detector_filter. Qed.
Print Assumptions C84_detector_filter.

(* the name for a filter without one has the greatest number in use, not the one after it *)
Theorem C84_next : forall A (d : det A), exists k, nextbeamfilter d = BEAMFILTER ++ dec k /\ 0 <= k /\ (forall n q, known d n -> beam_name n q -> int_of q <= k) /\ (k = 0 \/ exists n q, known d n /\ beam_name n q /\ int_of q = k).
Proof. exact @next_spec. Qed.
Print Assumptions C84_next.
(* so it replaces a filter that is there *)
Theorem C84_overwrite_refuted : forall A (d : det A) a k, 0 <= k -> known d (BEAMFILTER ++ dec k) -> (forall n q, known d n -> beam_name n q -> int_of q <= k) ->
  exists d', addbeamfilter None a d = Ok d' /\ keys (attenuators d') = keys (attenuators d) /\ lookup chars_eqb (BEAMFILTER ++ dec k) (attenuators d') = Some a.
Proof. exact @overwrite. Qed.
Print Assumptions C84_overwrite_refuted.
Example C84_overwrite_ex : let d := {| own := [(txt "BeamFilter2", 1)]; around := None |} in known d (BEAMFILTER ++ dec 2) /\ addbeamfilter None 5 d = Ok {| own := [(txt "BeamFilter2", 5)]; around := None |}.
Proof. split; [now left|reflexivity]. Qed.
(* two filters, one left *)
Theorem C84_unnamed_refuted : forall A (d : det A) a b, (forall n, known d n -> ~ is_beam n) -> exists d1 d2, addbeamfilter None a d = Ok d1 /\ addbeamfilter None b d1 = Ok d2 /\ beamfilters false d1 = [a] /\ beamfilters false d2 = [b].
Proof. exact @unnamed_lost. Qed.
Print Assumptions C84_unnamed_refuted.
(* two sample covers, one in the beam *)
Theorem C84_cover_refuted : forall A (d : det A) m n a b, (forall n, known d n -> ~ is_beam n) -> ~ is_beam m -> ~ is_beam n -> exists d1 d2, addsamplecover m a d = Ok d1 /\ addsamplecover n b d1 = Ok d2 /\ beamfilters false d1 = [a] /\ beamfilters false d2 = [b].
Proof. exact @cover_lost. Qed.
Print Assumptions C84_cover_refuted.
Example C84_cover_ex : addsamplecover (txt "cover2") 2 (match addsamplecover (txt "cover1") 1 {| own := []; around := None |} with Ok d => d | Err _ => {| own := []; around := None |} end)
  = Ok {| own := [(txt "cover1", 1); (txt "BeamFilter0", 2); (txt "cover2", 2)]; around := None |}.
Proof. reflexivity. Qed.

(* removal *)
Theorem C84_remove_beam : forall A (d : det A), good d -> beamfilters false (removebeamfilters d) = [] /\ forall k, ~ is_beam k -> lookup chars_eqb k (attenuators (removebeamfilters d)) = lookup chars_eqb k (attenuators d).
Proof. exact @remove_beams. Qed.
Print Assumptions C84_remove_beam.
Theorem C84_remove_detector : forall A (d : det A) b, good d -> around d = None -> forall k, lookup chars_eqb k (attenuators (removedetectorfilters b d)) = if isdetectorfilter k b then None else lookup chars_eqb k (attenuators d).
Proof. exact @remove_detector. Qed.
Print Assumptions C84_remove_detector.
(* the atmosphere cannot be removed when the geometry has one, and is not removed when asked to include it *)
Theorem C84_atmosphere_stays_refuted : forall A (d : det A) b a, good d -> (around d = Some a \/ (b = true /\ lookup chars_eqb ATMOSPHERE (attenuators d) = Some a)) -> lookup chars_eqb ATMOSPHERE (attenuators (removedetectorfilters b d)) = Some a.
Proof. exact @atmosphere_stays. Qed.
Print Assumptions C84_atmosphere_stays_refuted.
Example C84_remove_ex : let d := {| own := [(txt "window", 1); (txt "beamfilter3", 3); (DETECTOR, 2)]; around := @None Z |} in
  own (removebeamfilters d) = [(txt "window", 1); (DETECTOR, 2)] /\ own (removedetectorfilters true d) = [(txt "beamfilter3", 3); (DETECTOR, 2)].
Proof. split; reflexivity. Qed.

(* a detector restored from its saved state equals the original but has lost its pulse processing time and escape peaks *)
Theorem C84_restored_refuted : forall e esc p, exists s, s = setstate (getstate (solid_init e esc p)) /\ solid_eqb s (solid_init e esc p) = true /\ pileup (solid_init e esc p) = Ok (negb (p =? 0)) /\ pileup s = Err AttributeError /\ escape s <> escape (solid_init e esc p).
Proof. exact restored. Qed.
Print Assumptions C84_restored_refuted.

Local Open Scope R_scope.
(* the transmission through filters is the product of the transmissions, between 0 and 1 *)
Theorem C84_transmission : forall s d e, filter_transmission s d e = fold_right (fun a t => exp (- (mac a e * (thickness a * density a))) * t) 1 (if s then beamfilters false d else detectorfilters true d).
Proof. exact transmission_product. Qed.
Print Assumptions C84_transmission.
Theorem C84_range : forall s d e, (forall n a, has d n a -> 0 <= mac a e * (thickness a * density a)) -> 0 < filter_transmission s d e <= 1 /\ 0 <= filter_attenuation s d e < 1.
Proof. exact transmission_range. Qed.
Print Assumptions C84_range.
(* a detector without material stops everything *)
Theorem C84_detector : forall d e, (lookup chars_eqb DETECTOR (attenuators d) = None -> attenuation d e = 1) /\ (forall a, lookup chars_eqb DETECTOR (attenuators d) = Some a -> attenuation d e = 1 - exp (- (mac a e * (thickness a * density a))))
  /\ ((forall n a, has d n a -> 0 <= mac a e * (thickness a * density a)) -> 0 <= attenuation d e <= 1).
Proof. exact detector_range. Qed.
Print Assumptions C84_detector.
(* efficiency[i, j] = T(source i) T(detector j) A(j) *)
Theorem C84_efficiency : forall w d es ed i j x y, nth_error es i = Some x -> nth_error ed j = Some y ->
  (exists row, nth_error (efficiency w d es ed) i = Some row /\ length row = length ed /\ nth_error row j = Some (filter_transmission true d x * (filter_transmission false d y * (if w then attenuation d y else 1)))) /\ length (efficiency w d es ed) = length es.
Proof. exact efficiency_spec. Qed.
Print Assumptions C84_efficiency.
Theorem C84_efficiency_range : forall w d es ed row x, (forall e, In e es \/ In e ed -> forall n a, has d n a -> 0 <= mac a e * (thickness a * density a)) -> In row (efficiency w d es ed) -> In x row -> 0 <= x <= 1.
Proof. exact efficiency_range. Qed.
Print Assumptions C84_efficiency_range.
(* the air between the sample and the detector makes no difference *)
Theorem C84_air_refuted : forall w o a es ed, efficiency w {| own := o; around := Some a |} es ed = efficiency w {| own := o; around := None |} es ed.
Proof. exact air_ignored. Qed.
Print Assumptions C84_air_refuted.
Example C84_range_ex : let d := {| own := [(txt "BeamFilter1", {| mac := fun e => e; density := 2; thickness := 1 |}); (DETECTOR, {| mac := fun e => e; density := 1; thickness := 3 |})]; around := None |} in
  filter_transmission true d 1 = exp (- 2) /\ attenuation d 1 = 1 - exp (- 3) /\ forall n a, has d n a -> 0 <= mac a 1 * (thickness a * density a).
Proof.
  cbv zeta. split; [|split].
  - rewrite C84_transmission. match goal with |- context [beamfilters false ?d] => change (beamfilters false d) with [{| mac := fun e : R => e; density := 2; thickness := 1 |}] end. cbn [fold_right mac thickness density]. rewrite Rmult_1_r. f_equal. lra.
  - destruct (C84_detector {| own := [(txt "BeamFilter1", {| mac := fun e => e; density := 2; thickness := 1 |}); (DETECTOR, {| mac := fun e => e; density := 1; thickness := 3 |})]; around := None |} 1) as (_ & H & _). erewrite H by reflexivity. cbn. do 2 f_equal. lra.
  - intros n a [H|[H|[]]]; assert (X := f_equal snd H); cbn [snd] in X; subst a; cbn; lra.
Qed.
