(* Model of the charge per photon in detectors/diode.py (583-950), of the normalised line weights in
   materials/utils.py (20-70), and of the calibration against another diode (diode.py 1762-1858).
   One source with any number of lines; exact numbers. Transmissions, the charge per diode photon and the spectrum of
   a secondary target are functions. *)
From Verif Require Export Base QcTac.
From Verif Require FitModel.
Local Open Scope Qc_scope.

Fixpoint total (l : list Qc) : Qc := match l with [] => 0 | x :: l' => x + total l' end.
Definition zipmul (a b : list Qc) : list Qc := map (fun p => fst p * snd p) (combine a b).
Definition qn {A} (l : list A) : Qc := Qc_of_Z (Z.of_nat (length l)).

(* materials/utils.py:20-70 reshape_spectrum_lines for one source, weights that sum to zero are not modelled (Interrupt) *)
Definition line_weights (energy : list Qc) (weights : option (list Qc)) (normalize : bool) : result (list Qc) :=
  let! w := match weights with
            | None => Ok (map (fun _ => 1 / qn energy) energy)
            | Some w => if normalize then (if Qc_eqb (total w) 0 then Err Interrupt else Ok (map (fun x => x / total w) w)) else Ok w
            end in
  if negb (length energy =? length w)%nat then Err ValueError else Ok w.

Record device : Type := {
  before : bool;                            (* beforesample *)
  optics : list (Qc -> Qc);                 (* transmissions *)
  source_filter : Qc -> Qc; det_filter : Qc -> Qc; diode_trans : Qc -> Qc;
  target_trans : Qc -> Qc;
  (* the secondary target: lines (energy, rate) from the source lines, for a solid angle; None: direct detection *)
  target : option (Qc -> list Qc -> list Qc -> list (Qc * Qc));
  solidangle : Qc;
  diode_charge : Qc -> Qc                   (* _chargeperdiodephoton: C/ph *)
}.
(* 595-606 *)
Definition optics_trans (d : device) (e : Qc) : Qc := fold_left (fun t f => t * f e) (optics d) 1.
(* 608-638 *)
Definition source_trans (d : device) (e : Qc) : Qc :=
  let t := optics_trans d e in
  if before d then
    let t := t * source_filter d e in
    match target d with
    | None => t * diode_trans d e * det_filter d e
    | Some _ => t * target_trans d e
    end
  else t.
(* 640-716: the rates of direct detection are summed with keepdims: one rate *)
Definition detection_rates (d : device) (energy weights : list Qc) : list Qc * list Qc :=
  match target d with
  | None => (energy, [total (zipmul (zipmul weights (map (source_filter d) energy)) (map (det_filter d) energy))])
  | Some spectrum => let s := spectrum (solidangle d) energy weights in (map fst s, map snd s)
  end.
(* numpy: an array of one element is repeated *)
Definition spread (a b : list Qc) : list Qc := match a with [x] => map (fun y => x * y) b | _ => zipmul a b end.
(* 718-761 without simplecalibration; None: division by zero *)
Definition charge (d : device) (energy : list Qc) (weights : option (list Qc)) : result (option Qc) :=
  let! w := line_weights energy weights true in
  let ts := map (source_trans d) energy in
  let (energy2, rates) := detection_rates d energy w in
  let cj := map (diode_charge d) energy2 in
  let num := total (spread rates cj) in
  let den := total (zipmul w ts) in
  Ok (if Qc_eqb den 0 then None else Some (num / den)).
(* with simplecalibration 740-745; the table of energies and charges answers at its own energies (LutModel.v), None elsewhere *)
Definition table : Type := list (Qc * Qc).
Fixpoint look_up (e : Qc) (t : table) : option Qc := match t with [] => None | (k, v) :: t' => if Qc_eqb e k then Some v else look_up e t' end.
Fixpoint all_some (l : list (option Qc)) : option (list Qc) :=
  match l with [] => Some [] | None :: _ => None | Some x :: l' => option_map (cons x) (all_some l') end.
Definition charge_simple (t : table) (energy : list Qc) (weights : option (list Qc)) : result (option Qc) :=
  let! w := line_weights energy weights true in
  Ok (option_map (fun c => total (zipmul c w)) (all_some (map (fun e => look_up e t) energy))).
(* 789-800: the new table; a weight zero is not modelled *)
Definition calibrate_simple (c : Qc) (energy : list Qc) (weights : option (list Qc)) : result table :=
  let! w := line_weights energy weights true in
  if existsb (fun x => Qc_eqb x 0) w then Err Interrupt else Ok (combine energy (map (fun x => c / x) w)).
(* 817-829, caliboption "solidangle" *)
Definition set_solidangle (s : Qc) (d : device) : device :=
  {| before := before d; optics := optics d; source_filter := source_filter d; det_filter := det_filter d; diode_trans := diode_trans d;
     target_trans := target_trans d; target := target d; solidangle := s; diode_charge := diode_charge d |}.
Definition calibrate_solidangle (c : Qc) (d : device) (energy : list Qc) (weights : option (list Qc)) : result (option (device * option Qc)) :=
  let! w := line_weights energy weights true in
  let! cs := charge d energy (Some w) in
  match cs with
  | None => Ok None
  | Some cs =>
      if Qc_eqb cs 0 then Ok None
      else let d' := set_solidangle (solidangle d * (c / cs)) d in
           let! cs' := charge d' energy (Some w) in Ok (Some (d', cs'))
  end.
(* 944-964; None: division by zero *)
Definition sample_weights (simple : bool) (d : device) (energy : list Qc) (weights : option (list Qc)) : result (option (list Qc)) :=
  let! w := line_weights energy weights true in
  if simple || negb (before d) then Ok (Some w)
  else let w := zipmul w (map (source_trans d) energy) in
       Ok (if Qc_eqb (total w) 0 then None else Some (map (fun x => x / total w) w)).

(* 1806-1836: dark current and charge per sample photon from currents and fluxes. linfit is the least-squares line of smallest norm
   (np.linalg.lstsq): with one flux only, the normal equations do not decide. The new dark current is None when it is kept. *)
Definition mean (l : list Qc) : Qc := total l / qn l.
Definition linfit (x y : list Qc) : result (Qc * Qc) :=
  let! (m, b) := FitModel.linfit2 x y false in
  match m, b, x with
  | Some m, Some b, _ => Ok (m, b)
  | _, _, x0 :: _ => Ok (x0 * mean y / (x0 * x0 + 1), mean y / (x0 * x0 + 1))
  | _, _, [] => Ok (0, 0)
  end.
Definition linfit0 (x y : list Qc) : result Qc :=
  let! m := FitModel.linfit_zerointercept2 x y in Ok (match m with Some m => m | None => 0 end).
Definition in_flux_range (lo hi : option Qc) (p : Qc * Qc) : bool :=
  (match lo with Some a => Qc_leb a (fst p) | None => true end) && (match hi with Some b => Qc_leb (fst p) b | None => true end).
Definition fit_response (dark : Qc) (fixdark : bool) (lo hi : option Qc) (flux current : list Qc) : result (option Qc * option Qc) :=
  if negb (length flux =? length current)%nat then Err IndexError else
  let pts := filter (in_flux_range lo hi) (combine flux current) in
  let x := map fst pts in
  let y := map snd pts in
  match pts with
  | [] => Err RuntimeError
  | [(x0, y0)] => Ok (if Qc_eqb x0 0 then None else Some ((y0 - dark) / x0), None)
  | _ =>
      if fixdark then let! m := linfit0 x (map (fun v => v - dark) y) in Ok (Some m, None)
      else
        let! (m, b) := linfit x y in
        if Qc_ltb b 0 then let! m := linfit0 x y in Ok (Some m, Some 0) else Ok (Some m, Some b)
  end.
