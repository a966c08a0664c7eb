(* C104: quantitative XRF geometries; C105: calibration data, devices and instruments. *)
From Verif Require Import QxrfModel QxrfSpec QxrfProofs QxrfDataProofs.
From Verif Require PathModel Text.
From Coq Require Import String.
Local Open Scope string_scope.
Local Open Scope list_scope.
Local Open Scope Qc_scope.

(* ---- C104: devices ---- *)
Theorem C104_devices_agree : forall r l g g', consistent g -> set_attrs r l g = (g', Ok tt) -> consistent g'.
Proof. exact consistent_sets. Qed.
Print Assumptions C104_devices_agree.
Theorem C104_new_devices_agree : forall r i d0 dt simple fl tr gs det ge o s ref rt ex g,
  construct r i d0 dt simple fl tr gs det ge o s ref rt ex = Ok g -> consistent g.
Proof. exact consistent_construct. Qed.
Print Assumptions C104_new_devices_agree.
Theorem C104_failures_change_nothing_partial : forall r s g g' e, set_attr r s g = (g', Err e) -> (forall l, s <> Geometries l) -> g' = g.
Proof. exact failed_unchanged. Qed.
Print Assumptions C104_failures_change_nothing_partial.
Theorem C104_geometries : forall r l g,
  (forall g', set_attr r (Geometries l) g = (g', Ok tt) -> Forall2 (asked r) l (g_geoms g')) /\
  (forall g' e, set_attr r (Geometries l) g = (g', Err e) -> e = RuntimeError /\ exists l1 a b l2, l = l1 ++ Pair a b :: l2 /\ Forall2 (asked r) l1 (g_geoms g') /\
     (lookup String.eqb a (r_geoms r) = None \/ lookup String.eqb b (r_detectors r) = None)).
Proof. exact geometries_set. Qed.
Print Assumptions C104_geometries.
Theorem C104_one_geometry : forall g,
  (forall x, xrfgeometry g = Ok x <-> g_geoms g = [x]) /\ (List.length (g_geoms g) <> 1%nat -> xrfgeometry g = Err RuntimeError).
Proof. exact xrfgeometry_spec. Qed.
Print Assumptions C104_one_geometry.
(* positions beyond the geometries are ignored, geometries beyond the positions keep theirs *)
Theorem C104_positions : forall g v,
  positions (set_positions v g) = firstn (List.length (positions g)) v ++ skipn (List.length v) (positions g) /\
  map (fun x => (x_class x, x_source x, x_detector x, x_filter x)) (g_geoms (set_positions v g)) =
  map (fun x => (x_class x, x_source x, x_detector x, x_filter x)) (g_geoms g).
Proof. exact set_positions_spec. Qed.
Print Assumptions C104_positions.

(* ---- C104: state ---- *)
Theorem C104_state : forall r g, consistent g -> setstate r g = Ok g.
Proof. exact roundtrip. Qed.
Print Assumptions C104_state.
Theorem C104_equal : forall same g, (forall h, same h h = true) -> (geo_eqb same g g = true <-> g_expotime g <> NaN).
Proof. exact equal_self. Qed.
Print Assumptions C104_equal.
(* without default exposure time a geometry is not equal to itself *)
Theorem C104_equal_refuted : forall same g h, g_expotime g = NaN -> geo_eqb same g h = false.
Proof. exact never_equal. Qed.
Print Assumptions C104_equal_refuted.
(* a reference in other units is refused, but not with the ValueError that is written in the code *)
Theorem C104_reference_partial : forall r u x g,
  (u = Hz -> set_attr r (Reference u x) g = (with_reference (Hz, x) g, Ok tt)) /\
  (u = Counts \/ u = Plain -> set_attr r (Reference u x) g = (with_reference (Counts, x) g, Ok tt)) /\
  (u = Ampere \/ u = Volt \/ u = Other -> set_attr r (Reference u x) g = (g, Err TypeError)).
Proof. exact reference_set. Qed.
Print Assumptions C104_reference_partial.

(* ---- C104: normalisation ---- *)
Theorem C104_normalise_to_flux : forall g v r s f0 i0 e d t ref F rt tr, g_I0 g = Some v -> works (v_diode v) r s f0 i0 ->
  chosen e d t -> g_expotime g = match d with Some x => Fin x | None => NaN end -> chosen ref (Some (g_reference g)) (Hz, F) ->
  (tr = match rt with Some x => Some x | None => g_reftime g end) ->
  t <> 0 -> F <> 0 -> (forall x, tr = Some x -> x <> 0) ->
  exists op, xrfnormop g e ref rt = Ok (Some (op, F, match tr with Some x => x | None => t end, t)) /\
    forall f i u c, signals (v_diode v) r s f0 i0 f i u c ->
      eval op (Fin (c * t)) = Fin (f * t / (F * match tr with Some x => x | None => t end)).
Proof. exact norm. Qed.
Print Assumptions C104_normalise_to_flux.
Theorem C104_normalise_to_counts : forall g v r s f0 i0 e d t rt tr u f i w c y, g_I0 g = Some v -> works (v_diode v) r s f0 i0 ->
  chosen e d t -> g_expotime g = match d with Some x => Fin x | None => NaN end -> u = Plain \/ u = Counts ->
  (tr = match rt with Some x => Some x | None => g_reftime g end) ->
  t <> 0 -> signals (v_diode v) r s f0 i0 f i w c -> ScalarModel.round_sig f 2 = Ok y ->
  xrfnormop g e (Some (u, c * t)) rt = xrfnormop g e (Some (Hz, y)) rt.
Proof. exact norm_counts. Qed.
Print Assumptions C104_normalise_to_counts.
Theorem C104_normalise_without_diode : forall g e ref rt, g_I0 g = None -> xrfnormop g e ref rt = Err AttributeError.
Proof. exact norm_no_diode. Qed.
Print Assumptions C104_normalise_without_diode.
(* "reference: iodet (counts) or flux (photons/sec)": a number is always counts *)
Theorem C104_number_as_flux_refuted : forall g e x rt, xrfnormop g e (Some (Plain, x)) rt = xrfnormop g e (Some (Counts, x)) rt.
Proof. exact norm_plain. Qed.
Print Assumptions C104_number_as_flux_refuted.
(* the information for pymca cannot be made for any geometry *)
Theorem C104_quantification_refuted : forall g e ref rt y, g_geoms g <> [] -> xrfnormop g e ref rt = Ok y -> quantinfo g e ref rt = Err AttributeError.
Proof. exact quantinfo_attribute. Qed.
Print Assumptions C104_quantification_refuted.
Theorem C104_quantification_without_geometry : forall g e ref rt, g_geoms g = [] ->
  (forall y, xrfnormop g e ref rt = Ok (Some y) -> quantinfo g e ref rt = Ok (Some (fst (fst (fst y))), [])).
Proof. exact quantinfo_none. Qed.
Print Assumptions C104_quantification_without_geometry.
(* flux from the counts of a diode, before the sample or before the beam filters *)
Theorem C104_flux_before_sample : forall g v r s f0 i0 e d t, g_I0 g = Some v -> works (v_diode v) r s f0 i0 ->
  chosen e d t -> g_expotime g = match d with Some x => Fin x | None => NaN end -> t <> 0 ->
  (exists op, I0op g e false = Ok (Some (op, t)) /\ forall f i u c, signals (v_diode v) r s f0 i0 f i u c -> eval op (Fin (c * t)) = Fin f) /\
  (forall T, T <> 0 -> g_geoms g <> [] -> (forall x, In x (g_geoms g) -> x_filter x = T) ->
   exists op, I0op g e true = Ok (Some (op, t)) /\ forall f i u c, signals (v_diode v) r s f0 i0 f i u c -> eval op (Fin (c * t)) = Fin (f / T)).
Proof. exact (fun g => diodeop_ok (g_I0 g) g). Qed.
Print Assumptions C104_flux_before_sample.
Theorem C104_flux_after_sample : forall g v r s f0 i0 e d t, g_It g = Some v -> works (v_diode v) r s f0 i0 ->
  chosen e d t -> g_expotime g = match d with Some x => Fin x | None => NaN end -> t <> 0 ->
  (exists op, Itop g e false = Ok (Some (op, t)) /\ forall f i u c, signals (v_diode v) r s f0 i0 f i u c -> eval op (Fin (c * t)) = Fin f) /\
  (forall T, T <> 0 -> g_geoms g <> [] -> (forall x, In x (g_geoms g) -> x_filter x = T) ->
   exists op, Itop g e true = Ok (Some (op, t)) /\ forall f i u c, signals (v_diode v) r s f0 i0 f i u c -> eval op (Fin (c * t)) = Fin (f / T)).
Proof. exact (fun g => diodeop_ok (g_It g) g). Qed.
Print Assumptions C104_flux_after_sample.
Theorem C104_flux_errors : forall g e,
  (g_I0 g = None -> forall b, I0op g e b = Err AttributeError) /\
  (forall v t, g_I0 g = Some v -> time_of g e = Some t -> t <> 0 -> forall r s f0 i0, works (v_diode v) r s f0 i0 ->
     (g_geoms g = [] -> I0op g e true = Err IndexError) /\
     (forall x y, In x (g_geoms g) -> In y (g_geoms g) -> x_filter x <> x_filter y -> I0op g e true = Err RuntimeError)).
Proof. exact (fun g => diodeop_errors (g_I0 g) g). Qed.
Print Assumptions C104_flux_errors.

(* ---- C105: calibration data ---- *)
(* p k: the value given for k with its unit. Rates are kept, or amounts divided by the time *)
Theorem C105_validated_data : forall units expo a b data static p, (forall k, field a b k -> provided units data static k (p k)) ->
  let t := match p Time with Some (_, x) => x | None => expo end in
  ((forall k, field a b k -> right_dimension p k) /\
   exists d', validate units expo a b data static = Ok d' /\
     lookup key_eqb Time d' = Some (Some Sec, t) /\
     lookup key_eqb Ener d' = match p Ener with Some (d, x) => Some (Some d, x) | None => None end /\
     (forall id, id = a \/ id = b ->
        lookup key_eqb (Resp id counts) d' = match p (Resp id counts) with Some (d, x) => Some (Some d, x) | None => None end /\
        lookup key_eqb (Resp id photons) d' = match p (Resp id photons) with Some (d, x) => Some (Some d, x) | None => None end /\
        lookup key_eqb (Resp id current) d' = match p (Resp id current) with Some (d, x) => Some (Some d, x) | None => None end /\
        lookup key_eqb (Resp id cps) d' = match p (Resp id cps), p (Resp id counts) with
                                          | Some (d, x), _ => Some (Some d, x)
                                          | None, Some (_, c) => Some (Some Rate, n_div c t)
                                          | None, None => None
                                          end /\
        lookup key_eqb (Resp id flux) d' = match p (Resp id flux), p (Resp id photons) with
                                           | Some (d, x), _ => Some (Some d, x)
                                           | None, Some (_, c) => Some (Some Rate, n_div c t)
                                           | None, None => None
                                           end)) \/
  (~ (forall k, field a b k -> right_dimension p k) /\ validate units expo a b data static = Err TypeError).
Proof. exact validate_cases. Qed.
Print Assumptions C105_validated_data.
(* at ID21 currents without unit are refused: their unit is set to Hz *)
Theorem C105_currents_at_id21_refuted : forall expo (data static : table) x, lookup key_eqb (Resp "I0" current) data = Some ((None, Fin x) : value) ->
  (forall k, field "I0" "It" k -> exists o, provided id21_units data static k o) ->
  validate id21_units expo "I0" "It" data static = Err TypeError.
Proof. exact validate_id21. Qed.
Print Assumptions C105_currents_at_id21_refuted.
Theorem C105_response_for_gain : forall data dark id,
  let has k := exists v, lookup key_eqb k data = Some v in
  (gain_source data dark id = Some current <-> has Ener /\ dark = false /\ has (Resp id cps) /\ has (Resp id current)) /\
  (gain_source data dark id = Some flux <-> has Ener /\ dark = false /\ has (Resp id cps) /\ ~ has (Resp id current) /\ has (Resp id flux)) /\
  (forall q, gain_source data dark id = Some q -> q = current \/ q = flux).
Proof. exact gain_source_spec. Qed.
Print Assumptions C105_response_for_gain.

(* ---- C105: gains and devices ---- *)
Theorem C105_close : forall a b, isclose a b = true <-> exists m, (m = b \/ m = - b) /\ 0 <= m /\
  - (Q2Qc (1 # 100000000) + Q2Qc (1 # 100000) * m) <= a - b /\ a - b <= Q2Qc (1 # 100000000) + Q2Qc (1 # 100000) * m.
Proof. exact isclose_spec. Qed.
Print Assumptions C105_close.
Theorem C105_gain : forall asked data,
  set_diode_gain true None None = Err RuntimeError /\
  set_diode_gain true None (Some data) = Ok data /\ set_diode_gain true (Some asked) None = Ok asked /\
  (isclose asked data = true -> set_diode_gain true (Some asked) (Some data) = Ok asked) /\
  (isclose asked data = false -> set_diode_gain true (Some asked) (Some data) = Err RuntimeError).
Proof. exact set_gain_spec. Qed.
Print Assumptions C105_gain.
(* gains in ampere are far below the absolute tolerance: no difference is seen *)
Theorem C105_different_gains_refuted : forall a d, - (Q2Qc (1 # 100000000)) <= a - d -> a - d <= Q2Qc (1 # 100000000) -> isclose a d = true.
Proof. exact close_small. Qed.
Print Assumptions C105_different_gains_refuted.
Theorem C105_usage_unknown : forall known derives dev reset, check_device known derives dev None reset = Ok dev.
Proof. exact check_unknown. Qed.
Print Assumptions C105_usage_unknown.
(* a device of another class is an error, with or without resetting ("verify, create or replace") *)
Theorem C105_device_used : forall known derives dev name reset, name <> "" ->
  (dev = None -> reset = false -> check_device known derives dev (Some name) reset = Err RuntimeError) /\
  (forall cls, lookup String.eqb name known = Some cls ->
     (dev = None -> reset = true -> check_device known derives dev (Some name) reset = Ok (Some cls)) /\
     (forall c, dev = Some c -> derives c cls = true -> check_device known derives dev (Some name) reset = Ok dev) /\
     (forall c, dev = Some c -> derives c cls = false -> check_device known derives dev (Some name) reset = Err RuntimeError)) /\
  (lookup String.eqb name known = None -> check_device known derives dev (Some name) reset = Err RuntimeError).
Proof. exact check_used. Qed.
Print Assumptions C105_device_used.
(* a device that was not used cannot be removed by resetting *)
Theorem C105_unused_device_refuted : forall known derives dev reset,
  (dev = None -> check_device known derives dev (Some "") reset = Ok None) /\
  (forall c, dev = Some c -> lookup String.eqb "" known = None -> check_device known derives dev (Some "") reset = Err RuntimeError).
Proof. exact check_unused. Qed.
Print Assumptions C105_unused_device_refuted.
(* "dark" is optional for calibrate_diodes (631), not for its preparation (585) *)
Theorem C105_dark_is_optional_refuted : forall ko kd de un g devs names me data static reset g0 gt,
  prepare ko kd de un g devs names me data static reset None g0 gt = Err KeyError.
Proof. exact prepare_no_dark. Qed.
Print Assumptions C105_dark_is_optional_refuted.
Theorem C105_prepared : forall ko kd de un g devs names me data static reset dark a0 at_ data' devs' g0 gt,
  prepare ko kd de un g devs names me data static reset (Some dark) a0 at_ = Ok (data', devs', g0, gt) ->
  validate un (g_expotime g) (g_fluxid g) (g_transid g) data static = Ok data' /\
  check_device ko de (d_optics devs) (d_optics names) reset = Ok (d_optics devs') /\
  check_device kd de (d_I0 devs) (d_I0 names) reset = Ok (d_I0 devs') /\ check_device kd de (d_It devs) (d_It names) reset = Ok (d_It devs') /\
  d_I0 devs' <> None /\ d_It devs' <> None /\
  (a0 = Some g0 \/ (a0 = None /\ exists q, gain_source data' dark (g_fluxid g) = Some q /\ me (g_fluxid g) q = Ok (Some g0))) /\
  (at_ = Some gt \/ (at_ = None /\ exists q, gain_source data' dark (g_transid g) = Some q /\ me (g_transid g) q = Ok (Some gt))).
Proof. exact prepare_ok. Qed.
Print Assumptions C105_prepared.

(* ---- C105: instruments ---- *)
Theorem C105_device_from_motors : forall s pos,
  (exists l1 m l2 name, s_motors s = l1 ++ m :: l2 /\ indicates pos m name /\ name <> "" /\ Forall (fun m' => silent pos m' \/ indicates pos m' "") l1 /\
     devicename s pos = Some name) \/
  (Forall (fun m => silent pos m \/ indicates pos m "") (s_motors s) /\
   ((exists d, s_default s = Some d /\ devicename s pos = d) \/
    (s_default s = None /\ Forall (silent pos) (s_motors s) /\ devicename s pos = None) \/
    (s_default s = None /\ (exists m, In m (s_motors s) /\ indicates pos m "") /\ devicename s pos = Some ""))).
Proof. exact devicename_spec. Qed.
Print Assumptions C105_device_from_motors.
Theorem C105_counters : forall dict include exclude c, In c (counters dict include exclude) <->
  exists k l, lookup String.eqb k dict = Some l /\ In c l /\ (forall ks, include = Some ks -> In k ks) /\ (forall ks, exclude = Some ks -> ~ In k ks).
Proof. exact counters_spec. Qed.
Print Assumptions C105_counters.
(* a metadata type that is set is lost with the state, and instruments that differ in it are equal *)
Theorem C105_metadata_refuted : forall s i, metadata (set_metadata s i) = (if String.eqb s "xia" then "xia" else "counters") /\
  metadata (info_setstate (set_metadata s i)) = i_data i /\ info_eqb (set_metadata s i) i = true.
Proof. exact metadata_set. Qed.
Print Assumptions C105_metadata_refuted.
Theorem C105_location : forall sample dataset subdir, sample <> [] -> dataset <> [] ->
  PathModel.isabs sample = false -> PathModel.ends_slash sample = false -> PathModel.ends_slash dataset = false -> PathModel.isabs subdir = false ->
  let radix := sample ++ Text.ch 95 :: dataset in
  datalocation sample dataset subdir = (radix, sample ++ PathModel.slash :: radix ++ PathModel.slash :: subdir).
Proof. exact datalocation_spec. Qed.
Print Assumptions C105_location.

(* ---- cases that meet the hypotheses ---- *)
Definition q (n : Z) (k : positive) : Qc := Q2Qc (n # k).
Definition a_diode : diode :=
  {| vmax := Some (q 10 1); oscillator := Some {| Fmax := q 100 1; F0 := Fin (q 32 1); Vosc := q 10 1 |};
     gain := VperA (q 1000 1); dark := Fin (q 1 1000); charge := q 1 100000 |}.
Definition device : diode_dev := Diode "iodet1" None (Some None) false a_diode.
Definition reg : registry :=
  {| r_diodes := [("iodet1", device)]; r_sources := [("synchrotron", "synchrotron")]; r_optics := [("KB", "KB")];
     r_geoms := [("sxm120", Xgeom "sxm120" None None (q 60 1) (q 1 2))]; r_detectors := [("leia", "leia")] |}.
Definition geometry : geo :=
  Geo "sxm" true (Some "KB") (Some "synchrotron") [Xgeom "sxm120" (Some "synchrotron") (Some "leia") (q 60 1) (q 1 2)]
      (Some (Diode "iodet1" (Some "KB") (Some (Some "synchrotron")) true a_diode)) None (Hz, q 50 1) None (Fin (q 1 10)) "I0" "It".
Example made : construct reg "sxm" (Name "iodet1") Nothing true None None None (Some "leia") (Some "sxm120") (Name "KB") Nothing (Hz, q 50 1) None (Some (q 1 10)) = Ok geometry.
Proof. reflexivity. Qed.
Example made_consistent : consistent geometry.
Proof. exact (C104_new_devices_agree _ _ _ _ _ _ _ _ _ _ _ _ _ _ _ _ made). Qed.
(* the geometries are gone after an unknown name *)
Example geometries_lost : set_attr reg (Geometries [Pair "sxm120" "unknown"]) geometry = (with_geoms [] geometry, Err RuntimeError).
Proof. reflexivity. Qed.
(* ... and what was made before has no source *)
Example geometries_half : exists g, set_attr reg (Geometries [Pair "sxm120" "leia"; Pair "sxm120" "unknown"]) geometry = (g, Err RuntimeError) /\ ~ consistent g.
Proof.
  eexists. split; [reflexivity|]. intros (_ & B & _). specialize (B "synchrotron" (Xgeom "sxm120" None (Some "leia") (q 60 1) (q 1 2)) eq_refl (or_introl eq_refl)).
  discriminate.
Qed.
Example normalised : match xrfnormop geometry None None None with
                     | Ok (Some (op, F, tr, t)) => F = q 50 1 /\ t = q 1 10
                     | _ => False
                     end.
Proof. vm_compute. split; apply Qc_is_canon; reflexivity. Qed.
(* 50 as a flux is 50 photons/s; as a number it is counts, of 45000 photons/s *)
Example number_is_not_flux : exists op F tr t, xrfnormop geometry None (Some (Plain, q 50 1)) None = Ok (Some (op, F, tr, t)) /\ F <> q 50 1.
Proof.
  destruct (xrfnormop geometry None (Some (Plain, q 50 1)) None) as [[[[[op F] tr] t]|]|e] eqn:E; [|vm_compute in E; discriminate|vm_compute in E; discriminate].
  exists op, F, tr, t. split; [reflexivity|]. vm_compute in E. intros ->. vm_compute in E. discriminate.
Qed.
Example quantification_fails : quantinfo geometry None None None = Err AttributeError.
Proof. vm_compute. reflexivity. Qed.
Example gains_not_told_apart : isclose (q 1 1000000000) (q 5 1000000000) = true.
Proof. apply C105_different_gains_refuted; vm_compute; discriminate. Qed.
Definition motors : selector :=
  {| s_motors := [("istopz", ("iodet2", q (-20) 1, "", q (-13) 10)); ("ioz", ("iodet1", q 7 1, "", q 23 1))]; s_default := None |}.
Example from_motors : devicename motors [("istopz", q (-2) 1); ("ioz", q 8 1)] = Some "iodet1" /\ devicename motors [("istopz", q (-2) 1)] = Some "" /\ devicename motors [] = None.
Proof. vm_compute. split; [|split]; reflexivity. Qed.
Example rates : exists d, validate id21_units (Fin (q 1 10)) "I0" "It" [(Resp "I0" counts, (None, Fin (q 7 1)))] [(Ener, (None, Fin (q 5 1)))] = Ok d /\
  lookup key_eqb (Resp "I0" cps) d = Some (Some Rate, n_div (Fin (q 7 1 * 1)) (Fin (q 1 10))).
Proof. eexists. split; reflexivity. Qed.
