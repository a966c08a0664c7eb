(* Model of src/spectrocrunch/geometries/base.py (FlatSample, Centric), geometries/xrf.py (LinearMotor, LinearXRFGeometry and
   its presets) and CentricCone.solidangle_calc of detectors/base.py 386-409.
   Numbers are real numbers, lengths are in cm and areas in cm^2 (pint keeps track of other units: a length that is a
   plain number gets the unit of the place). Random variables are replaced by their mean. The fit of calibrate_fit and
   the calibration files are not modelled. *)
From Coq Require Import Reals.
From Verif Require Export Base.
Local Open Scope R_scope.

(* a plain number or a quantity in cm *)
Inductive len : Type := Plain (x : R) | Cm (x : R).
(* utils/units.py 11-26: Quantity(value, unit) with u cm per unit *)
Definition quantity (u : R) (v : len) : R := match v with Plain x => x * u | Cm x => x end.

(* ---- detectors/base.py 386-409: solidangle_calc. 0.5 powers of nonnegative numbers; the missing argument is None ---- *)
Definition solidangle_calc (activearea distance solidangle : option R) : result R :=
  match solidangle with
  | None =>
      match distance, activearea with
      | Some d, Some a => Ok (2 * PI * (1 - d / sqrt (a / PI + d * d)))
      | _, _ => Err TypeError
      end
  | Some s =>
      match distance with
      | None => match activearea with
                | Some a => let c2 := (1 - s / (2 * PI)) * (1 - s / (2 * PI)) in Ok (sqrt (a / PI * c2 / (1 - c2)))
                | None => Err TypeError
                end
      | Some d => match activearea with
                  | None => let c2 := (1 - s / (2 * PI)) * (1 - s / (2 * PI)) in Ok ((1 - c2) * (d * d) * PI / c2)
                  | Some _ => Err RuntimeError
                  end
      end
  end.

(* ---- geometries/base.py 74-163: the angles of a flat sample, in degrees ---- *)
Record angles : Type := { anglein : R; angleout : R }.
Definition radians (x : R) : R := x * PI / 180.
Definition reflection (g : angles) : Prop := angleout g > 0.
Definition anglenormin (g : angles) : R := 90 - anglein g.
Definition set_anglenormin (v : R) (g : angles) : angles := {| anglein := 90 - v; angleout := angleout g |}.
Definition anglenormout (g : angles) : R := 90 + angleout g.
Definition set_anglenormout (v : R) (g : angles) : angles := {| anglein := anglein g; angleout := v - 90 |}.
Definition cosnormin (g : angles) : R := cos (radians (anglenormin g)).
Definition cosnormout (g : angles) : R := cos (radians (anglenormout g)).
Definition scatteringangle (g : angles) : R := anglein g + angleout g.

(* ---- geometries/xrf.py: a detector on a linear motor. zero: _zerodistance; pos: distancekwargs["detectorposition"];
   unit: cm per unit of the motor position ---- *)
Record motor : Type := { sign : R; zero : option R; pos : option R; unit : R; area : option R }.
Definition set_pos (p : option R) (m : motor) : motor := {| sign := sign m; zero := zero m; pos := p; unit := unit m; area := area m |}.
Definition set_zero (z : option R) (m : motor) : motor := {| sign := sign m; zero := z; pos := pos m; unit := unit m; area := area m |}.
(* 473-474, 477-479: None has no method "to" *)
Definition detectorposition (m : motor) : result R := match pos m with Some p => Ok (p / unit m) | None => Err AttributeError end.
(* 481-487 *)
Definition set_detectorposition (v : option len) (m : motor) : motor :=
  set_pos (match v with Some x => Some (quantity (unit m) x) | None => None end) m.
(* 50-55 *)
Definition set_zerodistance (v : option len) (m : motor) : motor := set_zero (match v with Some x => Some (quantity 1 x) | None => None end) m.
(* 57-71: the distance, the position or the zero distance from the other two *)
Definition distancecalc (m : motor) (detectorposition zerodistance distance : option R) : result R :=
  match distance with
  | None => match detectorposition, zerodistance with Some p, Some z => Ok (sign m * (p + z)) | _, _ => Err TypeError end
  | Some d =>
      match detectorposition with
      | None => match zerodistance with Some z => Ok (sign m * d - z) | None => Err TypeError end
      | Some _ => match zerodistance with
                  | None => match pos m with Some p => Ok (sign m * d - p) | None => Err AttributeError end
                  | Some _ => Err RuntimeError
                  end
      end
  end.
(* 354-365: what the property "distance" gives; without a position LinearMotor.__call__ (90-95) returns a dictionary *)
Inductive seen : Type := Number (d : R) | Dictionary.
Definition distance (m : motor) : result seen :=
  match pos m with
  | None => Ok Dictionary
  | Some p => match distancecalc m (Some p) (zero m) None with Ok d => Ok (Number d) | Err e => Err e end
  end.
(* 367-374 with 90-95 *)
Definition set_distance (v : option len) (m : motor) : result motor :=
  match v with
  | None => Ok (set_pos None m)
  | Some x => let! p := distancecalc m None (zero m) (Some (quantity 1 x)) in Ok (set_pos (Some p) m)
  end.
(* 101-107 *)
Definition calibrate_manually (v : len) (m : motor) : result motor :=
  let! p := match pos m with Some p => Ok p | None => Err AttributeError end in
  let! z := distancecalc m (Some p) None (Some (quantity 1 v)) in
  Ok (set_zero (Some z) m).
(* geometries/base.py 264-279 *)
Definition solidangle (m : motor) : result R :=
  match distance m with
  | Ok (Number d) => solidangle_calc (area m) (Some d) None
  | Ok Dictionary => Err TypeError
  | Err e => Err e
  end.
Definition set_solidangle (s : R) (m : motor) : result motor :=
  let! d := solidangle_calc (area m) None (Some s) in set_distance (Some (Cm d)) m.

(* 425-444: LinearXRFGeometry.__init__; kdistance is the keyword "distance", other is an unknown keyword *)
Definition linear_init (kpos kzero : option len) (u : R) (sgn : R) (kdistance : option len) (kother : bool) (a : option R) : result motor :=
  let z := match kzero with Some x => Some (quantity u x) | None => None end in
  let m := {| sign := sgn; zero := z; pos := None; unit := u; area := a |} in
  let! m := set_distance kdistance m in
  if kother then Err TypeError else
  Ok (match kdistance with None => set_detectorposition kpos m | Some _ => m end).
(* 505-573: the presets: a default for each keyword; the sign is asked for under the name "sign", which stays among the keywords;
   a plain zero distance is in mm. ID16b_Virtual1 also takes a plain position in mm (posmm). *)
Record preset : Type := { psign : R; pzero : R; ppos : R; posmm : bool }.
Definition sxm120 : preset := {| psign := 1; pzero := 57; ppos := 0; posmm := false |}.
Definition sxm90 : preset := {| psign := 1; pzero := 85571 / 1000; ppos := 0; posmm := false |}.
Definition microdiff : preset := {| psign := -1; pzero := - (56667 / 1000); ppos := 10; posmm := false |}.
Definition ID16b_Virtual1 : preset := {| psign := 1; pzero := 0; ppos := 20; posmm := true |}.
Definition mm : R := / 10.
Definition preset_init (p : preset) (kpos kzero : option len) (kunit : option R) (kpositionsign ksign : option R) (kdistance : option len) (a : option R) : result motor :=
  let u := match kunit with Some u => u | None => mm end in
  let sgn := match ksign with Some s => s | None => psign p end in
  let z := Cm (quantity mm (match kzero with Some z => z | None => Plain (pzero p) end)) in
  let x := match kpos with Some x => x | None => Plain (ppos p) end in
  let x := if posmm p then Cm (quantity mm x) else x in
  linear_init (Some x) (Some z) u sgn kdistance (match ksign with Some _ => true | None => false end) a.
(* An XRFGeometry without a distance function is not modelled: its constructor raises, because super() objects have no settable attributes (369). *)
(* geometries/base.py 229-238, xrf.py 316-328, 446-455, 22-29: what is saved, and what is made of it *)
Record saved : Type := { s_sign : R; s_zero : option R; s_kwpos : option R; s_distance : seen; s_pos : R; s_unit : R; s_area : option R }.
Definition getstate (m : motor) : result saved :=
  let! d := distance m in
  let! p := detectorposition m in
  Ok {| s_sign := sign m; s_zero := zero m; s_kwpos := pos m; s_distance := d; s_pos := p * unit m; s_unit := unit m; s_area := area m |}.
Definition setstate (s : saved) : result motor :=
  let m := {| sign := s_sign s; zero := s_zero s; pos := s_kwpos s; unit := s_unit s; area := s_area s |} in
  let! m := match s_distance s with Number d => set_distance (Some (Cm d)) m | Dictionary => Err TypeError end in
  Ok (set_detectorposition (Some (Cm (s_pos s))) m).
