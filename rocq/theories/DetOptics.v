(* Model of src/spectrocrunch/detectors/base.py 222-288: absorbance, transmission and efficiency of a detector.
   An attenuator is a material (mass attenuation coefficient as a function of the energy, density) with a thickness.
   Numbers are real numbers; arrays of energies are lists; np.exp(-inf) = 0. *)
From Coq Require Import Reals.
From Verif Require Export DetModel.
Local Open Scope R_scope.

Record layer : Type := { mac : R -> R; density : R; thickness : R }.
(* materials/elementbase.py 124-130, no weights *)
Definition layer_absorbance (a : layer) (energy : R) : R := mac a energy * (thickness a * density a).
(* 222-235: sum() starts from 0 *)
Definition filter_absorbance (source : bool) (d : det layer) (energy : R) : R :=
  let atts := if source then beamfilters false d else detectorfilters true d in
  match atts with [] => 0 | _ => fold_left (fun s a => s + layer_absorbance a energy) atts 0 end.
(* 237-247 *)
Definition filter_transmission (source : bool) (d : det layer) (energy : R) : R := exp (- filter_absorbance source d energy).
Definition filter_attenuation (source : bool) (d : det layer) (energy : R) : R := 1 - filter_transmission source d energy.
(* 249-256: None is infinity. (np.full_like(3, inf) has no dimensions, it is the same for every energy.) *)
Definition absorbance (d : det layer) (energy : R) : option R :=
  match lookup chars_eqb DETECTOR (attenuators d) with Some a => Some (layer_absorbance a energy) | None => None end.
(* 258-264 *)
Definition transmission (d : det layer) (energy : R) : R := match absorbance d energy with Some x => exp (- x) | None => 0 end.
Definition attenuation (d : det layer) (energy : R) : R := 1 - transmission d energy.
(* 266-288 *)
Definition efficiency (withdetector : bool) (d : det layer) (energysource energydet : list R) : list (list R) :=
  let t0 := map (filter_transmission true d) energysource in
  let t1 := map (filter_transmission false d) energydet in
  let row := map (fun p => fst p * snd p) (combine t1 (if withdetector then map (attenuation d) energydet else map (fun _ => 1) energydet)) in
  map (fun t => map (fun x => t * x) row) t0.
