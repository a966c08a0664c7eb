(* Model of src/spectrocrunch/geometries/qxrf.py (QXRFGeometry: devices that belong together, normalisation of XRF, calibration
   data) and of the devices and counters of src/spectrocrunch/instruments/configuration.py.
   The energies and weights are fixed. A diode is that of DiodeModel.v with the attributes this class gives it. Values are exact
   and in SI units; arrays are treated element by element. Objects are values: sharing a device between geometries is not
   modelled. pint's DimensionalityError is a TypeError. The plots and the reading of spec files are left out. *)
From Verif Require Export DiodeModel.
From Verif Require PathModel Text.
From Coq Require Import String.
Local Open Scope string_scope.
Local Open Scope list_scope.
Local Open Scope Qc_scope.

(* ---- devices ---- *)
(* a diode: its class, its optics, the source of its secondary target (None: no target), simplecalibration *)
Record diode_dev : Type := Diode { v_class : string; v_optics : option string; v_target : option (option string); v_simple : bool; v_diode : diode }.
(* an XRF geometry: its class, source, detector, position, and the transmission of its beam filters at the energies *)
Record xgeom : Type := Xgeom { x_class : string; x_source : option string; x_detector : option string; x_position : Qc; x_filter : Qc }.
(* reference: its unit (Hz or Counts) and value; a default exposure time can be NaN *)
Record geo : Type := Geo {
  g_instrument : string; g_simple : bool; g_optics : option string; g_source : option string;
  g_geoms : list xgeom; g_I0 : option diode_dev; g_It : option diode_dev;
  g_reference : unit_of * Qc; g_reftime : option Qc; g_expotime : num; g_fluxid : string; g_transid : string }.

(* what is given for a device: None, a class name or the object itself *)
Inductive given (A : Type) : Type := Nothing | Name (s : string) | Object (x : A).
Arguments Nothing {A}. Arguments Name {A} s. Arguments Object {A} x.
(* the classes that can be made, by name *)
Record registry : Type := {
  r_diodes : list (string * diode_dev); r_sources : list (string * string); r_optics : list (string * string);
  r_geoms : list (string * xgeom); r_detectors : list (string * string) }.
(* utils/classfactory.py: an unknown name is a RuntimeError *)
Definition factory {A} (r : list (string * A)) (s : string) : result A :=
  match lookup String.eqb s r with Some x => Ok x | None => Err RuntimeError end.
(* qxrf.py:286-290 _generate_device *)
Definition generate {A} (r : list (string * A)) (d : given A) : result (option A) :=
  match d with
  | Nothing => Ok None
  | Name s => let! x := factory r s in Ok (Some x)
  | Object x => Ok (Some x)
  end.

(* 297-305 _update_devices *)
Definition update_diode (g : geo) (v : diode_dev) : diode_dev :=
  Diode (v_class v) (g_optics g) (match v_target v with Some _ => Some (g_source g) | None => None end) (g_simple g) (v_diode v).
Definition update_geom (s : string) (x : xgeom) : xgeom := Xgeom (x_class x) (Some s) (x_detector x) (x_position x) (x_filter x).
Definition update (g : geo) : geo :=
  Geo (g_instrument g) (g_simple g) (g_optics g) (g_source g)
      (match g_source g with Some s => map (update_geom s) (g_geoms g) | None => g_geoms g end)
      (option_map (update_diode g) (g_I0 g)) (g_It g)
      (g_reference g) (g_reftime g) (g_expotime g) (g_fluxid g) (g_transid g).

(* the attributes without the updates *)
Definition with_simple (b : bool) (g : geo) : geo :=
  Geo (g_instrument g) b (g_optics g) (g_source g) (g_geoms g) (g_I0 g) (g_It g) (g_reference g) (g_reftime g) (g_expotime g) (g_fluxid g) (g_transid g).
Definition with_optics (o : option string) (g : geo) : geo :=
  Geo (g_instrument g) (g_simple g) o (g_source g) (g_geoms g) (g_I0 g) (g_It g) (g_reference g) (g_reftime g) (g_expotime g) (g_fluxid g) (g_transid g).
Definition with_source (s : option string) (g : geo) : geo :=
  Geo (g_instrument g) (g_simple g) (g_optics g) s (g_geoms g) (g_I0 g) (g_It g) (g_reference g) (g_reftime g) (g_expotime g) (g_fluxid g) (g_transid g).
Definition with_geoms (l : list xgeom) (g : geo) : geo :=
  Geo (g_instrument g) (g_simple g) (g_optics g) (g_source g) l (g_I0 g) (g_It g) (g_reference g) (g_reftime g) (g_expotime g) (g_fluxid g) (g_transid g).
Definition with_I0 (v : option diode_dev) (g : geo) : geo :=
  Geo (g_instrument g) (g_simple g) (g_optics g) (g_source g) (g_geoms g) v (g_It g) (g_reference g) (g_reftime g) (g_expotime g) (g_fluxid g) (g_transid g).
Definition with_It (v : option diode_dev) (g : geo) : geo :=
  Geo (g_instrument g) (g_simple g) (g_optics g) (g_source g) (g_geoms g) (g_I0 g) v (g_reference g) (g_reftime g) (g_expotime g) (g_fluxid g) (g_transid g).
Definition with_reference (x : unit_of * Qc) (g : geo) : geo :=
  Geo (g_instrument g) (g_simple g) (g_optics g) (g_source g) (g_geoms g) (g_I0 g) (g_It g) x (g_reftime g) (g_expotime g) (g_fluxid g) (g_transid g).
Definition with_expotime (x : num) (g : geo) : geo :=
  Geo (g_instrument g) (g_simple g) (g_optics g) (g_source g) (g_geoms g) (g_I0 g) (g_It g) (g_reference g) (g_reftime g) x (g_fluxid g) (g_transid g).

(* a pair (geometry, detector) of names or a geometry *)
Inductive gspec : Type := Made (x : xgeom) | Pair (geometry detector : string).
Definition make_geom (r : registry) (s : gspec) : result xgeom :=
  match s with
  | Made x => Ok x
  | Pair a b =>
      let! x := factory (r_geoms r) a in
      let! d := factory (r_detectors r) b in
      Ok (Xgeom (x_class x) (x_source x) (Some d) (x_position x) (x_filter x))
  end.
(* 257-283: the list is emptied first and filled one by one: those made before an exception stay *)
Fixpoint make_geoms (r : registry) (l : list gspec) : list xgeom * result unit :=
  match l with
  | [] => ([], Ok tt)
  | s :: l' =>
      match make_geom r s with
      | Err e => ([], Err e)
      | Ok x => let (m, e) := make_geoms r l' in (x :: m, e)
      end
  end.

(* the attributes that are set; a failure leaves the object as it is then *)
Inductive setting : Type :=
| Simple (b : bool)                     (* 197-200 *)
| Optics (d : given string)             (* 233-236 *)
| Source (d : given string)             (* 224-227 *)
| Geometries (l : list gspec)           (* 248-284 *)
| DiodeI0 (d : given diode_dev)         (* 206-209 *)
| DiodeIt (d : given diode_dev)         (* 215-218 *)
| Reference (u : unit_of) (x : Qc)      (* 356-367: the second "except" clause is never reached *)
| Expotime (t : option Qc).             (* 373-377 *)
Definition set_attr (r : registry) (s : setting) (g : geo) : geo * result unit :=
  match s with
  | Simple b => (update (with_simple b g), Ok tt)
  | Optics d => match generate (r_optics r) d with Ok o => (update (with_optics o g), Ok tt) | Err e => (g, Err e) end
  | Source d => match generate (r_sources r) d with Ok o => (update (with_source o g), Ok tt) | Err e => (g, Err e) end
  | Geometries l =>
      match make_geoms r l with
      | (m, Ok _) => (update (with_geoms m g), Ok tt)
      | (m, Err e) => (with_geoms m g, Err e)
      end
  | DiodeI0 d => match generate (r_diodes r) d with Ok v => (update (with_I0 v g), Ok tt) | Err e => (g, Err e) end
  | DiodeIt d => match generate (r_diodes r) d with Ok v => (update (with_It v g), Ok tt) | Err e => (g, Err e) end
  | Reference u x =>
      match u with
      | Hz => (with_reference (Hz, x) g, Ok tt)
      | Plain | Counts => (with_reference (Counts, x) g, Ok tt)
      | _ => (g, Err TypeError)
      end
  | Expotime t => (with_expotime (match t with Some t => Fin t | None => NaN end) g, Ok tt)
  end.
Fixpoint set_attrs (r : registry) (l : list setting) (g : geo) : geo * result unit :=
  match l with
  | [] => (g, Ok tt)
  | s :: l' => match set_attr r s g with (g', Ok _) => set_attrs r l' g' | (g', Err e) => (g', Err e) end
  end.

(* 32-91 and 292-295: the constructor; what is not set yet is arbitrary and not looked at *)
Definition blank (instrument : string) (reftime : option Qc) (fluxid transid : option string) : geo :=
  Geo instrument true None None [] None None (Hz, 0) reftime NaN
      (match fluxid with Some s => s | None => "I0" end) (match transid with Some s => s | None => "It" end).
Definition construct (r : registry) (instrument : string) (diodeI0 diodeIt : given diode_dev) (simple : bool) (fluxid transid : option string)
    (geoms : option (list gspec)) (detector geometry : option string) (optics source : given string)
    (reference : unit_of * Qc) (reftime : option Qc) (expotime : option Qc) : result geo :=
  let l := match geoms with
           | Some l => l
           | None => match geometry, detector with Some a, Some b => [Pair a b] | _, _ => [] end
           end in
  let settings :=
    [Simple simple; Optics optics; Source (match source with Nothing => Name "synchrotron" | s => s end);
     Geometries l; DiodeI0 diodeI0; DiodeIt diodeIt; Reference (fst reference) (snd reference); Expotime expotime] in
  match set_attrs r settings (blank instrument reftime fluxid transid) with
  | (g, Ok _) => Ok g
  | (_, Err e) => Err e
  end.

(* 93-122: state and back *)
Definition object_of {A} (o : option A) : given A := match o with Some x => Object x | None => Nothing end.
Definition setstate (r : registry) (s : geo) : result geo :=
  match set_attrs r [Simple (g_simple s); Optics (object_of (g_optics s)); Source (object_of (g_source s)); Geometries (map Made (g_geoms s));
                     DiodeI0 (object_of (g_I0 s)); DiodeIt (object_of (g_It s)); Reference (fst (g_reference s)) (snd (g_reference s))]
                    (blank (g_instrument s) (g_reftime s) (Some (g_fluxid s)) (Some (g_transid s))) with
  | (g, Ok _) => Ok (with_expotime (g_expotime s) g)
  | (_, Err e) => Err e
  end.
(* 124-144: NaN differs from itself. The equality of the other attributes is that of the values, which is decided by the caller *)
Definition geo_eqb (same : geo -> geo -> bool) (g h : geo) : bool :=
  same (with_expotime NaN g) (with_expotime NaN h) && n_eqb (g_expotime g) (g_expotime h).

(* 242-246 *)
Definition xrfgeometry (g : geo) : result xgeom := match g_geoms g with [x] => Ok x | _ => Err RuntimeError end.
(* 307-314 and alike: zip stops at the shortest *)
Definition positions (g : geo) : list Qc := map x_position (g_geoms g).
Fixpoint zip_positions (l : list xgeom) (v : list Qc) : list xgeom :=
  match l, v with
  | x :: l', p :: v' => Xgeom (x_class x) (x_source x) (x_detector x) p (x_filter x) :: zip_positions l' v'
  | _, _ => l
  end.
Definition set_positions (v : list Qc) (g : geo) : geo := with_geoms (zip_positions (g_geoms g) v) g.

(* ---- normalisation ---- *)
(* None: not a number; the operator then has no finite coefficients and is not modelled *)
Definition time_of (g : geo) (expotime : option Qc) : option Qc :=
  match expotime with Some t => Some t | None => match g_expotime g with Fin t => Some t | _ => None end end.
(* 398-435: the operator, the reference flux and time and the exposure time *)
Definition xrfnormop (g : geo) (expotime : option Qc) (reference : option (unit_of * Qc)) (referencetime : option Qc)
  : result (option (oper * Qc * Qc * Qc)) :=
  let (u, x) := match reference with
                | None => g_reference g
                | Some (Plain, x) => (Counts, x)
                | Some r => r
                end in
  let tref := match referencetime with Some t => Some t | None => g_reftime g end in
  match g_I0 g with
  | None => Err AttributeError
  | Some v =>
      match time_of g expotime with
      | None => Ok None
      | Some t => let! r := DiodeModel.xrfnormop (v_diode v) t u x tref in Ok (Some (r, t))
      end
  end.
(* 437-457: there is no method getxrfdistance. Without geometries the result is empty *)
Definition quantinfo (g : geo) (expotime : option Qc) (reference : option (unit_of * Qc)) (referencetime : option Qc)
  : result (option oper * list unit) :=
  let! r := xrfnormop g expotime reference referencetime in
  match g_geoms g with
  | [] => Ok (option_map (fun r => fst (fst (fst r))) r, [])
  | _ :: _ => Err AttributeError
  end.
(* 459-478 *)
Definition beamfilter_transmission (g : geo) : result Qc :=
  let T := map x_filter (g_geoms g) in
  match T with
  | [] => Err IndexError
  | t :: l => if forallb (Qc_eqb t) l then Ok t else Err RuntimeError
  end.
(* 501-522 and 524-546; LinearOperator(1./T, 0) * op *)
Definition diodeop (v : option diode_dev) (g : geo) (expotime : option Qc) (removebeamfilters : bool) : result (option (oper * Qc)) :=
  match v with
  | None => Err AttributeError
  | Some v =>
      match time_of g expotime with
      | None => Ok None
      | Some t =>
          let! op := fluxop (v_diode v) (Some t) Plain in
          if removebeamfilters
          then let! T := beamfilter_transmission g in Ok (Some (mul (lin (n_div (Fin 1) (Fin T)) (Fin 0)) op, t))
          else Ok (Some (op, t))
      end
  end.
Definition I0op (g : geo) := diodeop (g_I0 g) g.
Definition Itop (g : geo) := diodeop (g_It g) g.

(* ---- calibration data ---- *)
(* dimensions of the data *)
Inductive dim : Type := Dimless | Rate | Amp | Sec | Energy | OtherDim.
Definition dim_eqb (a b : dim) : bool :=
  match a, b with
  | Dimless, Dimless | Rate, Rate | Amp, Amp | Sec, Sec | Energy, Energy => true
  | OtherDim, OtherDim => true
  | _, _ => false
  end.
(* the keys "{id}_{name}" are pairs, "time" and "energy" are names *)
Inductive quant : Type := counts | cps | current | photons | flux.
Inductive key : Type := Resp (id : string) (q : quant) | Time | Ener.
Definition quant_eqb (a b : quant) : bool :=
  match a, b with counts, counts | cps, cps | current, current | photons, photons | flux, flux => true | _, _ => false end.
Definition key_eqb (a b : key) : bool :=
  match a, b with
  | Resp i p, Resp j q => String.eqb i j && quant_eqb p q
  | Time, Time | Ener, Ener => true
  | _, _ => false
  end.
(* a value: its dimension (None: a plain number) and its value *)
Definition value : Type := option dim * num.
Definition table : Type := list (key * value).
(* configuration.py:8-13 UnitDict: the unit of plain numbers, dimensionless when missing *)
Definition unit_for (units : list (key * (dim * Qc))) (k : key) : dim * Qc :=
  match lookup key_eqb k units with Some u => u | None => (Dimless, 1) end.
(* units.Quantity(v, unit): a quantity keeps its own *)
Definition quantity (u : dim * Qc) (v : value) : value :=
  match fst v with Some _ => v | None => (Some (fst u), n_mul (snd v) (Fin (snd u))) end.
(* v.to(d) *)
Definition to (d : dim) (v : value) : result value :=
  match fst v with
  | None => Err AttributeError
  | Some e => if dim_eqb e d then Ok v else Err TypeError
  end.
(* if k in data: data[k] = data[k].to(d) *)
Definition convert (k : key) (d : dim) (data : table) : result table :=
  match lookup key_eqb k data with
  | None => Ok data
  | Some v => let! v := to d v in Ok (assign key_eqb k v data)
  end.
(* 714-728 _calibrate_fields *)
Definition fields (ids : list string) : list key :=
  flat_map (fun q => map (fun i => Resp i q) ids) [counts; cps; current; photons; flux] ++ [Time; Ener].
(* 776-781 *)
Definition fill (units : list (key * (dim * Qc))) (static : table) (data : table) (k : key) : table :=
  match lookup key_eqb k data with
  | Some v => assign key_eqb k (quantity (unit_for units k) v) data
  | None =>
      match lookup key_eqb k static with
      | Some v => assign key_eqb k (quantity (unit_for units k) v) data
      | None => data
      end
  end.
(* 801-807, 809-815: amounts give the rate when it is missing *)
Definition rate_of (amount rate : key) (data : table) : result table :=
  let! data :=
    match lookup key_eqb amount data with
    | None => Ok data
    | Some v =>
        let! v := to Dimless v in
        let data := assign key_eqb amount v data in
        match lookup key_eqb rate data with
        | Some _ => Ok data
        | None =>
            match lookup key_eqb Time data with
            | Some t => Ok (assign key_eqb rate (Some Rate, n_div (snd v) (snd t)) data)
            | None => Err KeyError
            end
        end
    end in
  convert rate Rate data.
(* 793-818 *)
Definition respond (id : string) (data : table) : result table :=
  let! data := rate_of (Resp id counts) (Resp id cps) data in
  let! data := rate_of (Resp id photons) (Resp id flux) data in
  convert (Resp id current) Amp data.
(* 773-818 *)
Definition validate (units : list (key * (dim * Qc))) (expotime : num) (fluxid transid : string) (data static : table) : result table :=
  let data := fold_left (fill units static) (fields [fluxid; transid]) data in
  let data := match lookup key_eqb Time data with Some _ => data | None => assign key_eqb Time (Some Sec, expotime) data end in
  let! data := convert Time Sec data in
  let! data := convert Ener Energy data in
  let! data := respond fluxid data in
  respond transid data.
(* 765-771 _parse_default: the fields of the parameters are data; the values are taken over when validating *)
Definition parse_default (units : list (key * (dim * Qc))) (ids : list string) (params : table) : table :=
  flat_map (fun k => match lookup key_eqb k params with Some v => [(k, quantity (unit_for units k) v)] | None => [] end) (fields ids).

(* 674-712 _check_device. The devices are given by class; known: the classes by name; derives: isinstance of a class *)
Definition check_device (known : list (string * string)) (derives : string -> string -> bool) (dev : option string) (used : option string)
    (resetdevice : bool) : result (option string) :=
  match used with
  | None => Ok dev
  | Some name =>
      if negb (String.eqb name "") then
        match dev with
        | None => if resetdevice then generate known (Name name) else Err RuntimeError
        | Some c =>
            let! cls := factory known name in
            if derives c cls then Ok dev else Err RuntimeError
        end
      else
        match dev with
        | None => Ok dev
        | Some _ => if resetdevice then generate known (Name name) else Err RuntimeError
        end
  end.
(* abs *)
Definition qabs (x : Qc) : Qc := if Qc_ltb x 0 then - x else x.
(* np.isclose *)
Definition isclose (a b : Qc) : bool := Qc_leb (qabs (a - b)) (Q2Qc (1 # 100000000) + Q2Qc (1 # 100000) * qabs b).
(* 653-672: the gain that is set. The gains are in the unit of that of the data; hasdevice: there is a diode *)
Definition set_diode_gain (hasdevice : bool) (asked data : option Qc) : result Qc :=
  let! g := match asked, data with
            | None, None => Err RuntimeError
            | None, Some d => Ok d
            | Some a, Some d => if isclose a d then Ok a else Err RuntimeError
            | Some a, None => Ok a
            end in
  if hasdevice then Ok g else Err AttributeError.
(* 840-851: the response that gives the gain of a diode *)
Definition gain_source (data : table) (dark : bool) (id : string) : option quant :=
  if mem key_eqb Ener data && negb dark && mem key_eqb (Resp id cps) data then
    if mem key_eqb (Resp id current) data then Some current
    else if mem key_eqb (Resp id flux) data then Some flux
    else None
  else None.
(* 561-592 _calibrate_prepare on given data. dark: None when it is not among the parameters;
   names: the optics and the diodes used according to the motors; measured: the gain of a diode from a response *)
Record devices : Type := { d_optics : option string; d_I0 : option string; d_It : option string }.
Definition prepare (known_optics known_diodes : list (string * string)) (derives : string -> string -> bool) (units : list (key * (dim * Qc)))
    (g : geo) (devs names : devices) (measured : string -> quant -> result (option Qc)) (data static : table) (resetdevices : bool)
    (dark : option bool) (gainI0 gainIt : option Qc) : result (table * devices * Qc * Qc) :=
  match dark with
  | None => Err KeyError
  | Some dark =>
      let! data := validate units (g_expotime g) (g_fluxid g) (g_transid g) data static in
      let! o := check_device known_optics derives (d_optics devs) (d_optics names) resetdevices in
      let! v0 := check_device known_diodes derives (d_I0 devs) (d_I0 names) resetdevices in
      let! vt := check_device known_diodes derives (d_It devs) (d_It names) resetdevices in
      let from id dev := match gain_source data dark id with
                         | None => Ok None
                         | Some q => match dev : option string with None => Err AttributeError | Some _ => measured id q end
                         end in
      let! m0 := from (g_fluxid g) v0 in
      let! mt := from (g_transid g) vt in
      let has (dev : option string) := match dev with Some _ => true | None => false end in
      let! g0 := set_diode_gain (has v0) gainI0 m0 in
      let! gt := set_diode_gain (has vt) gainIt mt in
      Ok (data, {| d_optics := o; d_I0 := v0; d_It := vt |}, g0, gt)
  end.

(* ---- instruments/configuration.py ---- *)
(* the devices by motor: name a near position a, name b near position b; the key "default" is apart *)
Record selector : Type := { s_motors : list (string * (string * Qc * string * Qc)); s_default : option (option string) }.
(* 101-123 _devicename *)
Fixpoint devicename_from (name : option string) (l : list (string * (string * Qc * string * Qc))) (pos : list (string * Qc)) : option string * bool :=
  match l with
  | [] => (name, false)
  | (m, (a, pa, b, pb)) :: l' =>
      match lookup String.eqb m pos with
      | None => devicename_from name l' pos
      | Some p =>
          let n := if Qc_ltb (qabs (p - pa)) (qabs (p - pb)) then a else b in
          if String.eqb n "" then devicename_from (Some n) l' pos else (Some n, true)
      end
  end.
Definition devicename (s : selector) (pos : list (string * Qc)) : option string :=
  match devicename_from None (s_motors s) pos with
  | (n, true) => n
  | (n, false) => match s_default s with Some d => d | None => n end
  end.
(* 79-88 counters; the values are lists of names, a single name is a list of one *)
Definition counters (dict : list (string * list string)) (include exclude : option (list string)) : list string :=
  let l := match include with Some l => l | None => keys dict end in
  let ex := match exclude with Some l => l | None => [] end in
  let l := filter (fun k => negb (existsb (String.eqb k) ex)) l in
  flat_map (fun k => match lookup String.eqb k dict with Some v => v | None => [] end) l.
(* 58-77 and 90-99: the attribute "metadata" is stored apart from the data; without it the data are looked at (__getattr__) *)
Record info : Type := Info { i_data : string; i_attr : option string }.
Definition metadata (i : info) : string := match i_attr i with Some s => s | None => i_data i end.
Definition set_metadata (s : string) (i : info) : info := Info (i_data i) (Some (if String.eqb s "xia" then "xia" else "counters")).
Definition info_setstate (i : info) : info := Info (i_data i) None.
Definition info_eqb (i j : info) : bool := String.eqb (i_data i) (i_data j).
(* 152-156 datalocation *)
Definition datalocation (sample dataset subdir : Text.chars) : Text.chars * Text.chars :=
  let radix := match sample, dataset with
               | [], [] => []
               | [], _ => dataset
               | _, [] => sample
               | _, _ => sample ++ [Text.ch 95] ++ dataset
               end in
  (radix, PathModel.join sample [radix; subdir]).
(* 264-265: the unit of currents of ESRF_ID21_SXM is Hz *)
Definition id21_units : list (key * (dim * Qc)) :=
  [(Time, (Sec, 1)); (Ener, (Energy, 1)); (Resp "I0" counts, (Dimless, 1)); (Resp "It" counts, (Dimless, 1)); (Resp "I0" cps, (Rate, 1));
   (Resp "It" cps, (Rate, 1)); (Resp "I0" current, (Rate, 1)); (Resp "It" current, (Rate, 1)); (Resp "I0" photons, (Dimless, 1));
   (Resp "It" photons, (Dimless, 1)); (Resp "It" flux, (Rate, 1)); (Resp "I0" flux, (Rate, 1))].
