(* Model of src/spectrocrunch/detectors/diode.py: conversions between flux, current, voltage, counts per second and counts of
   a PN-diode, its gain, and its calibration. Operators are those of math/linop.py (LinopModel.v).
   The energies and their weights are fixed, they only enter through the charge per sample photon (see ChargeModel.v).
   Numbers are exact in SI units and arrays are treated element by element; pint's DimensionalityError is a TypeError. *)
From Verif Require Export LinopModel.
From Verif Require ScalarModel.
Local Open Scope Qc_scope.

(* the unit of a measured value; Plain: a number without unit *)
Inductive unit_of : Type := Plain | Hz | Counts | Ampere | Volt | Other.
(* 376-424: the gain is in V/A, or the current in A at the maximal voltage *)
Inductive gain_t : Type := VperA (g : Qc) | Amps (g : Qc).
(* 132-192: Oscillator; 229-265 and 1754-1760: the diode. Without Vmax it takes that of its oscillator (248-252), which is up to the caller here *)
Record osc : Type := { Fmax : Qc; F0 : num; Vosc : Qc }.
Record diode : Type := { vmax : option Qc; oscillator : option osc; gain : gain_t; dark : num; charge : Qc }.

Definition divide (a b : Qc) : result Qc := if Qc_eqb b 0 then Err ZeroDivisionError else Ok (a / b).

(* 376-382, 392-397: None / Quantity is a TypeError *)
Definition Rout (d : diode) : result Qc :=
  match gain d with
  | VperA g => Ok g
  | Amps i => match vmax d with Some v => divide v i | None => Err TypeError end
  end.
Definition Imax (d : diode) : result Qc :=
  match gain d with
  | Amps i => Ok i
  | VperA g => match vmax d with Some v => divide v g | None => Err TypeError end
  end.

(* ---- operators ---- *)
Definition lin (m b : num) : oper := [Linear m b].
(* 201-210, 1051-1060; a diode without oscillator has None: AttributeError *)
Definition op_voltagetocps (d : diode) : result oper :=
  match oscillator d with
  | None => Err AttributeError
  | Some o => let! m := divide (Fmax o) (Vosc o) in Ok (lin (Fin m) (F0 o))
  end.
(* 212-221, 1062-1071 *)
Definition op_cpstovoltage (d : diode) : result oper := let! o := op_voltagetocps d in Ok (inverse o).
(* 966-975 *)
Definition op_currenttovoltage (d : diode) : result oper := let! r := Rout d in Ok (lin (Fin r) (Fin 0)).
(* 977-987 *)
Definition op_voltagetocurrent (d : diode) : result oper := let! r := Rout d in let! m := divide 1 r in Ok (lin (Fin m) (Fin 0)).
(* 989-1002 *)
Definition op_fluxtocurrent (d : diode) : result oper := Ok (lin (Fin (charge d)) (dark d)).
(* 1004-1016 *)
Definition op_currenttoflux (d : diode) : result oper := let! o := op_fluxtocurrent d in Ok (inverse o).
(* 1018-1027 *)
Definition op_currenttocps (d : diode) : result oper := let! a := op_voltagetocps d in let! b := op_currenttovoltage d in Ok (mul a b).
(* 1029-1038 *)
Definition op_cpstocurrent (d : diode) : result oper := let! a := op_voltagetocurrent d in let! b := op_cpstovoltage d in Ok (mul a b).
(* 1112-1115 *)
Definition op_countstocps (time : Qc) : result oper := let! m := divide 1 time in Ok (lin (Fin m) (Fin 0)).
(* 1040-1049: self.op_cpstocurrent without parentheses; Operator.__rmul__ refuses a method *)
Definition op_countstocurrent (d : diode) (time : Qc) : result oper := let! _ := op_countstocps time in Err NotImplementedError.
(* 1073-1082 *)
Definition op_countstovoltage (d : diode) (time : Qc) : result oper := let! a := op_cpstovoltage d in let! b := op_countstocps time in Ok (mul a b).
(* 1084-1096 *)
Definition op_cpstoflux (d : diode) : result oper := let! a := op_currenttoflux d in let! b := op_cpstocurrent d in Ok (mul a b).
(* 1098-1110 *)
Definition op_fluxtocps (d : diode) : result oper := let! a := op_currenttocps d in let! b := op_fluxtocurrent d in Ok (mul a b).
(* 1117-1130 *)
Definition op_countstoflux (d : diode) (time : Qc) : result oper := let! a := op_cpstoflux d in let! b := op_countstocps time in Ok (mul a b).
(* 1132-1146 *)
Definition op_voltagetoflux (d : diode) : result oper := let! a := op_currenttoflux d in let! b := op_voltagetocurrent d in Ok (mul a b).
(* 1148-1162 *)
Definition op_fluxtovoltage (d : diode) : result oper := let! a := op_currenttovoltage d in let! b := op_fluxtocurrent d in Ok (mul a b).

(* ---- 1164-1364: conversions ---- *)
Definition conv (o : result oper) (x : num) : result num := let! o := o in Ok (eval o x).
Definition fluxtocurrent d := conv (op_fluxtocurrent d).
Definition currenttoflux d := conv (op_currenttoflux d).
Definition cpstoflux d := conv (op_cpstoflux d).
Definition countstoflux d time := conv (op_countstoflux d time).
Definition fluxtocps d := conv (op_fluxtocps d).
Definition currenttocps d := conv (op_currenttocps d).
Definition cpstocurrent d := conv (op_cpstocurrent d).
Definition countstocurrent d time := conv (op_countstocurrent d time).
Definition voltagetocps d := conv (op_voltagetocps d).
Definition cpstovoltage d := conv (op_cpstovoltage d).
Definition countstocps time := conv (op_countstocps time).
(* 1312-1321: op_cpstovoltage takes no time *)
Definition countstovoltage (d : diode) (time : Qc) (x : num) : result num := Err TypeError.
Definition voltagetoflux d := conv (op_voltagetoflux d).
Definition fluxtovoltage d := conv (op_fluxtovoltage d).
Definition currenttovoltage d := conv (op_currenttovoltage d).

(* the unit of a plain number *)
Definition default (time : option Qc) (u : unit_of) : unit_of :=
  match u with Plain => match time with None => Hz | Some _ => Counts end | u => u end.
(* 1366-1404 *)
Definition fluxop (d : diode) (time : option Qc) (u : unit_of) : result oper :=
  match default time u with
  | Hz => op_cpstoflux d
  | Counts => match time with None => Err RuntimeError | Some t => op_countstoflux d t end
  | Ampere => op_currenttoflux d
  | Volt => op_voltagetoflux d
  | _ => Err TypeError
  end.
(* 1406-1440: an exception of currenttoflux leads to response.to("V") of amperes *)
Definition responsetoflux (d : diode) (time : option Qc) (u : unit_of) (x : num) : result num :=
  match default time u with
  | Hz => cpstoflux d x
  | Counts => match time with None => Err RuntimeError | Some t => countstoflux d t x end
  | Ampere => match currenttoflux d x with Ok y => Ok y | Err _ => Err TypeError end
  | Volt => voltagetoflux d x
  | _ => Err TypeError
  end.

(* ---- 1499-1566: normalisation of XRF. reference: its unit and value; the result is the operator, Fref and tref ---- *)
Definition xrfnormop (d : diode) (t : Qc) (u : unit_of) (reference : Qc) (referencetime : option Qc) : result (oper * Qc * Qc) :=
  let! op := op_countstoflux d t in
  let! Fref := match u with
               | Hz => Ok reference
               | Counts => match eval op (Fin reference) with
                           | Fin q => ScalarModel.round_sig q 2
                           | NaN => Err ValueError
                           | _ => Err OverflowError
                           end
               | Plain => Err AttributeError
               | _ => Err RuntimeError
               end in
  let! (m, tref) := match referencetime with
                    | Some r => let! m := divide t (Fref * r) in Ok (m, r)
                    | None => let! m := divide 1 Fref in Ok (m, t)
                    end in
  Ok (mul (lin (Fin m) (Fin 0)) op, Fref, tref).

(* ---- 1568-1631: calibration in the dark. Data are lists, None is NaN ---- *)
Definition clip0 (x : num) : num := if n_ltb x (Fin 0) then Fin 0 else x.
Definition known (l : list (option Qc)) : list Qc := flat_map (fun o => match o with Some q => [q] | None => [] end) l.
Definition nanmedian (l : list (option Qc)) : num := match known l with [] => NaN | k => Fin (ScalarModel.median k) end.
Definition set_dark (x : num) (d : diode) : diode := {| vmax := vmax d; oscillator := oscillator d; gain := gain d; dark := x; charge := charge d |}.
Definition set_F0 (o : osc) (x : num) (d : diode) : diode :=
  {| vmax := vmax d; oscillator := Some {| Fmax := Fmax o; F0 := x; Vosc := Vosc o |}; gain := gain d; dark := dark d; charge := charge d |}.
Definition calibratedark (d : diode) (time : option Qc) (u : unit_of) (l : list (option Qc)) : result diode :=
  let! x := match default time u with
            | Hz => cpstocurrent d (clip0 (nanmedian l))
            | Counts => match time with None => Err RuntimeError | Some t => countstocurrent d t (clip0 (nanmedian l)) end
            | Ampere => Ok (clip0 (nanmedian l))
            | _ => Err TypeError
            end in
  Ok (set_dark (clip0 x) d).
Definition calibrateF0 (d : diode) (time : option Qc) (u : unit_of) (l : list (option Qc)) : result diode :=
  let! meas := match default time u with
               | Hz => Ok (clip0 (nanmedian l))
               | Counts => match time with
                           | None => Err RuntimeError
                           | Some t => let! m := divide 1 t in Ok (clip0 (nanmedian (map (option_map (fun x => m * x + 0)) l)))
                           end
               | _ => Err TypeError
               end in
  let! calc := currenttocps d (dark d) in
  match oscillator d with
  | None => Err AttributeError
  | Some o => Ok (set_F0 o (clip0 (n_add (F0 o) (n_sub meas calc))) d)
  end.

(* ---- 94-129: the settings of an amplifier ---- *)
Record rounder : Type := { rm : option Qc; rbase : option Z }.
(* b**n *)
Definition qpow (b n : Z) : Qc := if (0 <=? n)%Z then Qc_of_Z (b ^ n) else / Qc_of_Z (b ^ (- n)).
(* the integer part of math.log(x, b): digits in base b *)
Fixpoint digits_from (fuel : nat) (b a : Z) : Z := match fuel with O => 0%Z | S f => if (a <? b)%Z then 1%Z else (1 + digits_from f b (a / b))%Z end.
Definition ndigits (b a : Z) : Z := digits_from (S (Z.to_nat (Z.log2 a))) b a.
Definition floor_log (b : Z) (x : Qc) : Z :=
  let d := (ndigits b (Qnum (this x)) - ndigits b (Zpos (Qden (this x))))%Z in
  if Qc_leb (qpow b d) x then d else (d - 1)%Z.
(* round(math.log(x, b)): the square of x decides, halves to even *)
Definition round_log (b : Z) (x : Qc) : Z :=
  let f := floor_log b x in
  let h := qpow b (2 * f + 1) in
  if Qc_ltb (x * x) h then f else if Qc_ltb h (x * x) then (f + 1)%Z else if Z.even f then f else (f + 1)%Z.
Definition round_gain (r : rounder) (x : Qc) : result Qc :=
  match rm r, rbase r with
  | None, None => Ok x
  | _, _ =>
      let! g := match rm r with Some m => divide x m | None => Ok x end in
      let! g := match rbase r with
                | Some b => if Qc_leb g 0 || (b <=? 0)%Z then Err ValueError else if (b =? 1)%Z then Err ZeroDivisionError else Ok (qpow b (round_log b g))
                | None => Ok (Qc_of_Z (ScalarModel.rint g))
                end in
      Ok (match rm r with Some m => m * g | None => g end)
  end.
(* 407-424, with the gain in a unit already *)
Definition set_gain (r : rounder) (x : Qc) (d : diode) : result diode :=
  let! g := round_gain r x in
  Ok {| vmax := vmax d; oscillator := oscillator d; gain := match gain d with VperA _ => VperA g | Amps _ => Amps g end; dark := dark d; charge := charge d |}.
(* 384-390, 399-405 *)
Definition set_Rout (r : rounder) (x : Qc) (d : diode) : result diode :=
  match gain d with
  | VperA _ => set_gain r x d
  | Amps _ => match vmax d with None => Err TypeError | Some v => let! i := divide v x in set_gain r i d end
  end.
Definition set_Imax (r : rounder) (x : Qc) (d : diode) : result diode :=
  match gain d with
  | Amps _ => set_gain r x d
  | VperA _ => match vmax d with None => Err TypeError | Some v => let! g := divide v x in set_gain r g d end
  end.
(* 1442-1497. The results: None (the function returns None), or a gain that may be NaN *)
Fixpoint map_result {A B} (f : A -> result B) (l : list A) : result (list B) :=
  match l with [] => Ok [] | x :: l' => let! y := f x in let! r := map_result f l' in Ok (y :: r) end.
Definition finite (l : list num) : list Qc := flat_map (fun x => match x with Fin q => [q] | _ => [] end) l.
Definition gainfromresponse (r : rounder) (d : diode) (time : option Qc) (ua : unit_of) (after : list num) (ub : unit_of) (before : list num) : result (option num) :=
  let! V_meas := match default time ua with
                 | Hz => map_result (cpstovoltage d) after
                 | Counts => match time with None => Err RuntimeError | Some _ => Err TypeError end     (* countstovoltage has no keyword weights *)
                 | _ => Err TypeError
                 end in
  let! V_calc := match default None ub with
                 | Hz => map_result (fluxtovoltage d) before
                 | Ampere => map_result (currenttovoltage d) before
                 | Volt => Ok before
                 | _ => Err TypeError
                 end in
  if negb (length V_meas =? length V_calc)%nat then Err ValueError else
  let ratios := match gain d with
                | Amps _ => map (fun p => n_div (snd p) (fst p)) (combine V_meas V_calc)
                | VperA _ => map (fun p => n_div (fst p) (snd p)) (combine V_meas V_calc)
                end in
  let m := match finite ratios with [] => NaN | l => Fin (ScalarModel.median l) end in
  let g := match gain d with VperA g => g | Amps g => g end in
  (* 1494: np.isfinite(r and r > 0): r itself if it is zero, a truth value otherwise; always finite *)
  match m with
  | Fin q => let! x := round_gain r (g * q) in Ok (Some (Fin x))
  | _ => match rm r, rbase r with None, None => Ok (Some NaN) | _, _ => Err ValueError end
  end.
