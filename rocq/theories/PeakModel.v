(* Model of the conversion between the two descriptions of the detector peak shape in
   src/spectrocrunch/detectors/xrf.py.  Numbers are exact.  The integrals over the peak
   shape (square roots and error functions of the energy) are parameters. *)
From Verif Require Export MatModel.

Record shape_integrals (E : Type) : Type := {
  gsigma : E -> Qc;        (* np.sqrt(gaussianVAR(energy)), 489-494 *)
  gnorm : E -> Qc;         (* 508-510 at a = 2 gaussianVAR(energy) *)
  snorm : E -> Qc;         (* 512-522 *)
  tnorm : E -> Qc -> Qc    (* 524-532, of the slope ratio *)
}.
Arguments gsigma {E}. Arguments gnorm {E}. Arguments snorm {E}. Arguments tnorm {E}.

Definition triple : Type := (Qc * Qc * Qc)%type.

(* the shape part of an XRFDetector; what was never set is None *)
Record peak (E : Type) : Type := {
  conversionenergy : option E;
  fixedarearatios : bool;
  bpeak : bool;
  broadenings : option (Qc * Qc);     (* _stailbroadening, _ltailbroadening *)
  slopes : option (Qc * Qc);          (* _stailslope_ratio, _ltailslope_ratio *)
  fractions : option triple;
  ratios : option triple
}.
Arguments conversionenergy {E}. Arguments fixedarearatios {E}. Arguments bpeak {E}.
Arguments broadenings {E}. Arguments slopes {E}. Arguments fractions {E}. Arguments ratios {E}.

(* detectors/xrf.py:256-263 wpeak *)
Definition wpeak (w : triple) : result Qc :=
  let '(w1, w2, w3) := w in
  let s := (w1 + w2 + w3)%Qc in
  let tol := Q2Qc (1 # 10000) in
  if Qc_ltb s (- tol)%Qc || Qc_ltb (1 + tol)%Qc s then Err RuntimeError
  else Ok (Qc_min (Qc_max (1 - s)%Qc 0%Qc) 1%Qc).

(* detectors/xrf.py:350-357 _fcalc_ratios_single *)
Definition fcalc_ratios_single (wp : Qc) (w c : triple) : triple :=
  let '(w1, w2, w3) := w in
  let '(c1, c2, c3) := c in
  let wp := if Qc_eqb wp 0 then 1%Qc else wp in
  (w1 / wp * c1, w2 / wp * c2, w3 / wp * c3)%Qc.

(* detectors/xrf.py:378-398 _fcalc_fractions_single.  Dividing by zero (numpy: not
   finite) is ZeroDivisionError here. *)
Definition matrix3 (a b c d e f g h i : Qc) : arr Qc :=
  {| shp := [3; 3]%nat;
     elt := fun o => match o with
            | [0%nat; 0%nat] => a | [0%nat; 1%nat] => b | [0%nat; 2%nat] => c
            | [1%nat; 0%nat] => d | [1%nat; 1%nat] => e | [1%nat; 2%nat] => f
            | [2%nat; 0%nat] => g | [2%nat; 1%nat] => h | [2%nat; 2%nat] => i
            | _ => 0%Qc end |}.
Definition div (a b : Qc) : result Qc := if Qc_eqb b 0 then Err ZeroDivisionError else Ok (a / b)%Qc.
Definition fcalc_fractions_single (bp : bool) (r c : triple) : result triple :=
  let '(r1, r2, r3) := r in
  let '(c1, c2, c3) := c in
  if bp then
    let A := matrix3 (r1 + c1) r1 r1  r2 (r2 + c2) r2  r3 r3 (r3 + c3)%Qc in
    let! sol := cramer A [r1; r2; r3] in
    match sol with [w1; w2; w3] => Ok (w1, w2, w3) | _ => Err ValueError end
  else
    let! w1 := div r1 c1 in
    let! w2 := div r2 c2 in
    let! w3 := div r3 c3 in
    Ok (w1, w2, w3).

Section Convert.
Context {E : Type} (I : shape_integrals E).

(* 299-323 _calc_ratios and 325-348 _calc_fractions: the constants.  The slopes must not
   be zero and the integrals must not vanish: ZeroDivisionError here. *)
Definition constants (u : E) (s : Qc * Qc) : result triple :=
  let! c1 := div (fst s) (tnorm I u (fst s)) in
  let! c2 := div (snd s) (tnorm I u (snd s)) in
  let! c3 := div (gnorm I u) (snorm I u) in
  Ok (c1, c2, c3).

(* Setting the two broadenings and then the fractions (204-218, 280-287), or the two
   slopes and then the ratios (224-238, 293-297).  The other description is updated only
   when the object is in the description that is set and a conversion energy is known. *)
Definition set_broadenings (p : peak E) (b : Qc * Qc) : peak E :=
  {| conversionenergy := conversionenergy p; fixedarearatios := fixedarearatios p; bpeak := bpeak p;
     broadenings := Some b;
     slopes := match fixedarearatios p, conversionenergy p with
               | true, Some u => Some (fst b * gsigma I u, snd b * gsigma I u)%Qc
               | _, _ => slopes p end;
     fractions := fractions p; ratios := ratios p |}.
Definition set_slopes (p : peak E) (s : Qc * Qc) : result (peak E) :=
  let! b := match fixedarearatios p, conversionenergy p with
            | false, Some u => let! b1 := div (fst s) (gsigma I u) in let! b2 := div (snd s) (gsigma I u) in Ok (Some (b1, b2))
            | _, _ => Ok (broadenings p) end in
  Ok {| conversionenergy := conversionenergy p; fixedarearatios := fixedarearatios p; bpeak := bpeak p;
        broadenings := b; slopes := Some s; fractions := fractions p; ratios := ratios p |}.
Definition set_fractions (p : peak E) (w : triple) : result (peak E) :=
  let! r := match fixedarearatios p, conversionenergy p with
            | true, Some u =>
                let! wp := wpeak w in
                match broadenings p with
                | None => Err AttributeError
                | Some b =>
                    let! c := constants u (fst b * gsigma I u, snd b * gsigma I u)%Qc in
                    Ok (Some (fcalc_ratios_single wp w c))
                end
            | _, _ => Ok (ratios p) end in
  Ok {| conversionenergy := conversionenergy p; fixedarearatios := fixedarearatios p; bpeak := bpeak p;
        broadenings := broadenings p; slopes := slopes p; fractions := Some w; ratios := r |}.
Definition set_ratios (p : peak E) (r : triple) : result (peak E) :=
  let! w := match fixedarearatios p, conversionenergy p with
            | false, Some u =>
                match slopes p with
                | None => Err AttributeError
                | Some s => let! c := constants u s in let! w := fcalc_fractions_single (bpeak p) r c in Ok (Some w)
                end
            | _, _ => Ok (fractions p) end in
  Ok {| conversionenergy := conversionenergy p; fixedarearatios := fixedarearatios p; bpeak := bpeak p;
        broadenings := broadenings p; slopes := slopes p; fractions := w; ratios := Some r |}.

(* detectors/xrf.py:84-108 convert on the object itself (inplace), with the energy to
   set, if any *)
Definition convert (p : peak E) (u : option E) : result (peak E) :=
  let u := match u with Some u => Some u | None => conversionenergy p end in
  match u with
  | None => Err RuntimeError
  | Some _ =>
      let p := {| conversionenergy := u; fixedarearatios := fixedarearatios p; bpeak := bpeak p;
                  broadenings := broadenings p; slopes := slopes p; fractions := fractions p; ratios := ratios p |} in
      let! p :=
        if fixedarearatios p then
          match broadenings p, fractions p with
          | Some b, Some w => set_fractions (set_broadenings p b) w
          | _, _ => Err AttributeError
          end
        else
          match slopes p, ratios p with
          | Some s, Some r => let! p := set_slopes p s in set_ratios p r
          | _, _ => Err AttributeError
          end
      in
      Ok {| conversionenergy := conversionenergy p; fixedarearatios := negb (fixedarearatios p); bpeak := bpeak p;
            broadenings := broadenings p; slopes := slopes p; fractions := fractions p; ratios := ratios p |}
  end.
End Convert.
