(* Model of src/spectrocrunch/math/noisepropagation.py and of the full-field chain that uses it:
   materials/multilayer.py propagate, materials/scintillators.py propagate, materials/lenses.py propagate,
   detectors/area.py propagate and simulation/calcnoise.py.
   A random variable is its expected value and its variance, exact rationals; Python keeps the standard
   deviation, the square root of the variance. A negative variance has no standard deviation: Python goes
   on with nan or a complex number, here that is Err ValueError. One number per call: arrays are applied
   element by element (propagate_broadcast). Absorption, transmission, light yield and quantum efficiency
   are parameters; division by zero is ZeroDivisionError (numpy: inf or nan with a warning).
   Not modelled: units, correlations between variables made in one call (the package uncertainties). *)
From Verif Require Export Base QcTac.
From Verif Require ScalarModel.
Local Open Scope Qc_scope.

Definition rv : Type := (Qc * Qc)%type.
Definition E (x : rv) : Qc := fst x.                  (* 61-70 *)
Definition VAR (x : rv) : Qc := snd x.                (* 73-86 *)
(* 53-57 with the variance s^2 *)
Definition randomvariable (e v : Qc) : result rv := if Qc_ltb v 0 then Err ValueError else Ok (e, v).
Definition constant (x : Qc) : rv := (x, 0).          (* E(X) = X and S(X) = 0 for a plain number *)
Definition bernouilli (p : Qc) : result rv := randomvariable p (p * (1 - p)).     (* 26-44 *)
Definition poisson (g : Qc) : result rv := randomvariable g g.                   (* 33-50 *)
Definition div (x y : Qc) : result Qc := if Qc_eqb y 0 then Err ZeroDivisionError else Ok (x / y).
(* 101-137 *)
Definition repeat (n : Qc) (X : rv) (forward : bool) : result rv :=
  if Qc_ltb n 0 then Err ValueError
  else if forward then randomvariable (E X * n) (VAR X * n)
  else let! e := div (E X) n in let! v := div (VAR X) n in randomvariable e v.
(* 140-192 *)
Definition compound (N X : rv) (forward : bool) : result rv :=
  if forward then randomvariable (E N * E X) (VAR N * E X * E X + VAR X * E N)
  else
    let! e := div (E N) (E X) in
    let! v := div (VAR N - VAR X * e) (E X * E X) in
    randomvariable e v.
(* 195-244 *)
Definition reverse_add (Z Y : rv) : result rv := randomvariable (E Z - E Y) (VAR Z - VAR Y).
Definition reverse_sub (Z Y : rv) : result rv := randomvariable (E Z + E Y) (VAR Z - VAR Y).
Definition reverse_mult (Z Y : rv) : result rv :=
  let! x := div (E Z) (E Y) in
  let! v := div (VAR Z - x * x * VAR Y) (E Y * E Y) in
  randomvariable x v.
Definition reverse_div (Z Y : rv) : result rv :=
  let x := E Z * E Y in
  let! c := div (x * x * VAR Y) (E Y * E Y) in
  randomvariable x (VAR Z * E Y * E Y - c).
(* the arithmetic of the package uncertainties for independent variables and plain numbers *)
Definition add (X Y : rv) : rv := (E X + E Y, VAR X + VAR Y).
Definition scale (X : rv) (c : Qc) : rv := (E X * c, VAR X * c * c).

(* a number of photons, with or without uncertainty (instance.isuscalar) *)
Inductive num : Type := Plain (x : Qc) | Noisy (X : rv).
Definition Noisily (r : result rv) : result num := let! X := r in Ok (Noisy X).

(* multilayer 1752-1777 with the interaction transmission *)
Definition sample_propagate (p : Qc) (N : num) (forward : bool) : result num :=
  match N with
  | Noisy X => Noisily (let! process := bernouilli p in compound X process forward)
  | Plain x => if forward then Ok (Plain (x * p)) else let! y := div x p in Ok (Plain y)
  end.
(* scintillators 82-124 and lenses 89-147: absorption or transmission p, then a gain g *)
Definition two_steps (p g : Qc) (N : num) (forward : bool) : result num :=
  match N with
  | Noisy X =>
      Noisily (let! selection := bernouilli p in
               let! gain := poisson g in
               let proc1 := if forward then selection else gain in
               let proc2 := if forward then gain else selection in
               let! Y := compound X proc1 forward in
               compound Y proc2 forward)
  | Plain x => if forward then Ok (Plain (x * (p * g))) else let! y := div x (p * g) in Ok (Plain y)
  end.

Record camera : Type := { etoDU : Qc; qe : Qc; DUoffset : Qc; darkcurrent : Qc; readoutnoise : Qc }.   (* area 11-39 *)
(* area 95-160 *)
Definition camera_propagate (c : camera) (N : num) (tframe nframe : Qc) (forward poissonapprox : bool) : result num :=
  match N with
  | Noisy X =>
      Noisily
        (let! dark := poisson (darkcurrent c) in
         let readout := (0, readoutnoise c * readoutnoise c) in
         let! process := poisson (qe c) in
         if forward then
           let! Y := compound X process true in
           let! Y := (if poissonapprox then randomvariable (E Y) (E Y) else Ok Y) in
           let Y := add (scale (add (add Y (scale dark tframe)) readout) (etoDU c)) (constant (DUoffset c)) in
           repeat nframe Y true
         else
           let! Y := repeat nframe X false in
           let! Y := reverse_add Y (constant (DUoffset c)) in
           let! Y := reverse_mult Y (constant (etoDU c)) in
           let! Y := reverse_add Y (scale dark tframe) in
           let! Y := reverse_add Y readout in
           let! Y := (if poissonapprox then randomvariable (E Y) (E Y) else Ok Y) in
           compound Y process false)
  | Plain x =>
      if forward then Ok (Plain (nframe * ((x * qe c + darkcurrent c * tframe) * etoDU c + DUoffset c)))
      else
        let! a := div x nframe in
        let! b := div (a - DUoffset c) (etoDU c) in
        let! y := div (b - darkcurrent c * tframe) (qe c) in
        Ok (Plain y)
  end.

(* the setup at one energy: calcnoise 44-66 *)
Record setup : Type := { sample : option Qc; absorbed : Qc; gain : Qc; lens_transmission : Qc; lightyield : Qc; cam : camera }.
(* 68-126; withnoise is not used *)
Definition propagate (s : setup) (N : num) (tframe nframe : Qc) (samplein forward poissonapprox : bool) : result num :=
  let through (N : num) (forward : bool) :=
    match sample s with Some p => if samplein then sample_propagate p N forward else Ok N | None => Ok N end in
  if forward then
    let! N := through N true in
    let! N := two_steps (absorbed s) (gain s) N true in
    let! N := two_steps (lens_transmission s) (lightyield s) N true in
    camera_propagate (cam s) N tframe nframe true poissonapprox
  else
    let! N := camera_propagate (cam s) N tframe nframe false false in
    let! N := two_steps (lens_transmission s) (lightyield s) N false in
    let! N := two_steps (absorbed s) (gain s) N false in
    through N false.

(* 144-204: data, flat, dark for the data and dark for the flat *)
Definition measurement (s : setup) (flux tdata ndata tflat nflat ndark : Qc) (withnoise : bool) : result (num * num * num * num) :=
  let photons (x : Qc) := if withnoise then Noisily (poisson x) else Ok (Plain x) in
  let! N := photons (flux * tdata) in
  let! N := propagate s N tdata ndata true true false in
  let! F := photons (flux * tflat) in
  let! F := propagate s F tflat nflat false true false in
  let zero := if withnoise then Noisy (0, 0) else Plain 0 in
  if Qc_eqb ndark 0 then Ok (N, F, zero, zero)
  else
    let! D := camera_propagate (cam s) zero tdata ndark true false in
    let! D0 := camera_propagate (cam s) zero tflat ndark true false in
    Ok (N, F, D, D0).
(* 17-33 for plain numbers *)
Definition transmission (N F D D0 tdata ndata tflat nflat ndark : Qc) : result Qc :=
  let! d := div D ndark in
  let! num := div (N - d * ndata) (ndata * tdata) in
  let! d0 := div D0 ndark in
  let! denom := div (F - d0 * nflat) (nflat * tflat) in
  div num denom.
(* 206-218 *)
Definition fluxfromflat (s : setup) (image tframe nframe : Qc) : result Qc :=
  let! r := propagate s (Plain image) tframe nframe false false false in
  match r with Plain x => div x tframe | Noisy _ => Err TypeError end.
(* 220-223 *)
Definition flatfromflux (s : setup) (flux tframe nframe : Qc) : result num := propagate s (Plain flux) tframe nframe false true false.
(* 225-230 *)
Definition getnframes (totaltime tdata tflat fracflat : Qc) : result (Z * Z) :=
  let! n := div totaltime tdata in
  let! h := div (n * fracflat) (Q2Qc (2#1)) in
  Ok (Z.max (ScalarModel.rint (n * (1 - fracflat))) 1, 2 * Z.max (ScalarModel.rint h) 1)%Z.
