From Verif Require Export QxrfModel DiodeSpec.
From Coq Require Import String.
Local Open Scope string_scope.
Local Open Scope list_scope.
Local Open Scope Qc_scope.

(* the I0 diode and the XRF geometries have the optics, source and simple calibration of the geometry; the reference is a flux or counts *)
Definition consistent (g : geo) : Prop :=
  (forall v, g_I0 g = Some v -> v_optics v = g_optics g /\ v_simple v = g_simple g /\ (v_target v = None \/ v_target v = Some (g_source g))) /\
  (forall s x, g_source g = Some s -> In x (g_geoms g) -> x_source x = Some s) /\
  (fst (g_reference g) = Hz \/ fst (g_reference g) = Counts).
(* the geometry x is what s asks for *)
Inductive asked (r : registry) : gspec -> xgeom -> Prop :=
| AskedObject : forall x y, x_class y = x_class x -> x_detector y = x_detector x -> x_position y = x_position x -> x_filter y = x_filter x ->
    asked r (Made x) y
| AskedPair : forall a b x d y, lookup String.eqb a (r_geoms r) = Some x -> lookup String.eqb b (r_detectors r) = Some d ->
    x_class y = x_class x -> x_detector y = Some d -> x_position y = x_position x -> x_filter y = x_filter x -> asked r (Pair a b) y.
(* a value that is given, or else the default *)
Inductive chosen {A} : option A -> option A -> A -> Prop :=
| Given : forall x d, chosen (Some x) d x
| Default : forall d, chosen None (Some d) d.

(* the value with its unit that the data, or else the motors, give for a key *)
Inductive with_units (units : list (key * (dim * Qc))) (k : key) : value -> dim * num -> Prop :=
| OwnUnit : forall d x, with_units units k (Some d, x) (d, x)
| KnownUnit : forall d f x, lookup key_eqb k units = Some (d, f) -> with_units units k (None, Fin x) (d, Fin (x * f))
| NoUnit : forall x, lookup key_eqb k units = None -> with_units units k (None, Fin x) (Dimless, Fin x).
Inductive provided (units : list (key * (dim * Qc))) (data static : table) (k : key) : option (dim * num) -> Prop :=
| InData : forall w v, lookup key_eqb k data = Some w -> with_units units k w v -> provided units data static k (Some v)
| InStatic : forall w v, lookup key_eqb k data = None -> lookup key_eqb k static = Some w -> with_units units k w v -> provided units data static k (Some v)
| Nowhere : lookup key_eqb k data = None -> lookup key_eqb k static = None -> provided units data static k None.
(* the dimension a key should have *)
Definition dimension (k : key) : dim :=
  match k with
  | Resp _ counts | Resp _ photons => Dimless
  | Resp _ cps | Resp _ flux => Rate
  | Resp _ current => Amp
  | Time => Sec
  | Ener => Energy
  end.
Definition right_dimension (p : key -> option (dim * num)) (k : key) : Prop := forall v, p k = Some v -> fst v = dimension k.
Definition field (a b : string) (k : key) : Prop := match k with Resp i _ => i = a \/ i = b | _ => True end.

(* nearer to pa than to pb *)
Definition nearer (p pa pb : Qc) : Prop := (p - pa) * (p - pa) < (p - pb) * (p - pb).
(* the device a motor indicates *)
Definition indicates (pos : list (string * Qc)) (m : string * (string * Qc * string * Qc)) (n : string) : Prop :=
  exists mot a pa b pb p, m = (mot, (a, pa, b, pb)) /\ lookup String.eqb mot pos = Some p /\ ((nearer p pa pb /\ n = a) \/ (~ nearer p pa pb /\ n = b)).
Definition silent (pos : list (string * Qc)) (m : string * (string * Qc * string * Qc)) : Prop := lookup String.eqb (fst m) pos = None.
