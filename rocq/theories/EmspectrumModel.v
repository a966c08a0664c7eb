(* Model of src/spectrocrunch/sources/emspectrum.py: discrete and dark spectra, which are lookup tables of intensities.
   Lines are in keV (the unit of the first data), intensities are plain numbers; numbers are exact and None stands for a number
   that is not finite (nan, inf). *)
From Verif Require Export Base QcTac LutModel.
Local Open Scope Qc_scope.

(* sources/emspectrum.py:10-27 Discrete.__init__ with utils/lut.py:14-26. units.Quantity of an empty list is a StopIteration *)
Definition discrete (lines intensities : option (list Qc)) : result lut :=
  match lines, intensities with
  | Some [], _ => Err StopIteration
  | _, Some [] => Err StopIteration
  | None, _ => Ok (lut_clear (Some 0))
  | Some x, _ =>
      let y := match intensities with Some y => y | None => repeat 0 (length x) end in
      match new_data true x y (lut_clear (Some 0)) with
      | (Ok _, t) => Ok t
      | (Err e, _) => Err e
      end
  end.
(* 29-31 lines: None for an empty spectrum *)
Definition lines (t : lut) : option (list Qc) := match lxy t with Some (x, _) => Some x | None => None end.
(* 33-35 intensities *)
Definition intensities (t : lut) : result (list Qc) := match lxy t with Some (_, y) => Ok y | None => Err AttributeError end.
(* 37-39 total *)
Definition total_intensity (t : lut) : result Qc := let! y := intensities t in Ok (fold_left Qcplus y 0).
(* 41-43 ratios: division by zero is not finite *)
Definition ratios (t : lut) : result (list (option Qc)) :=
  let! y := intensities t in
  let! s := total_intensity t in
  Ok (map (fun i => if Qc_eqb s 0 then None else Some (i / s)) y).
(* 49-51 nlines *)
Definition nlines (t : lut) : nat := lut_len t.
(* 53-62 sample: [conv] brings lines to the units of the table *)
Definition omult (a b : option Qc) : option Qc := match a, b with Some a, Some b => Some (a * b) | _, _ => None end.
Definition oplus (a b : option Qc) : option Qc := match a, b with Some a, Some b => Some (a + b) | _, _ => None end.
Definition sample (conv : Qc -> Qc) (t : lut) (l : lut) : result (option Qc) :=
  match lxy t with
  | None => Ok (ldefault l)
  | Some (x, _) =>
      let x := match lxy l with None => x | Some _ => map conv x end in
      let! y := mapM (lut_call l) x in
      let! r := ratios t in
      Ok (fold_left oplus (map (fun p => omult (fst p) (snd p)) (combine y r)) (Some 0))
  end.

(* 65-73 Dark: what is bound to the name after the statement; None is Python's None *)
Definition dark : lut := lut_clear (Some 0).
Definition dark_plus (t : lut) (x y : list Qc) : option lut := None.      (* t + (x, y) and t += (x, y) *)
Definition discrete_plus (t : lut) (x y : list Qc) : result (option lut) :=
  match new_data true x y t with (Ok _, t') => Ok (Some t') | (Err e, _) => Err e end.
