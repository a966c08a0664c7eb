(* Model of src/spectrocrunch/sources/polarization.py: Jones and Stokes vectors, their conversions,
   rotation and scattering.
   Numbers are exact and of any type with the operations of [arith]; complex numbers are pairs.
   Angles are in degrees as in the code; cos_deg x is np.cos(np.radians(x)). np.allclose in the check that
   a matrix is Hermitian (300, 649) and the tolerance of to_jones are exact here. Plots, printing and
   logging are not modelled. *)
From Verif Require Export Base.
Local Open Scope nat_scope.

Record arith : Type := mkArith {
  carrier : Type;
  n0 : carrier; n1 : carrier;
  nadd : carrier -> carrier -> carrier; nsub : carrier -> carrier -> carrier; nmul : carrier -> carrier -> carrier; ndiv : carrier -> carrier -> carrier; nopp : carrier -> carrier;
  cos_deg : carrier -> carrier; sin_deg : carrier -> carrier;      (* of an angle in degrees *)
  atan2d : carrier -> carrier -> carrier;                (* np.degrees(np.arctan2(y, x)) *)
  root : carrier -> carrier;                         (* np.sqrt *)
  ltb : carrier -> carrier -> bool; eqb : carrier -> carrier -> bool;
  right_angle : carrier;                         (* 90 *)
  eps0_c : carrier;                              (* vacuum permittivity times speed of light *)
  electron : carrier }.                          (* rest energy of an electron in keV *)
Arguments n0 {_}. Arguments n1 {_}. Arguments nadd {_}. Arguments nsub {_}. Arguments nmul {_}. Arguments ndiv {_}. Arguments nopp {_}.
Arguments cos_deg {_}. Arguments sin_deg {_}. Arguments atan2d {_}. Arguments root {_}. Arguments ltb {_}. Arguments eqb {_}.
Arguments right_angle {_}. Arguments eps0_c {_}. Arguments electron {_}.

Section Polarization.
Context {N : arith}.
Notation T := (carrier N).
Notation "x + y" := (nadd x y). Notation "x - y" := (nsub x y). Notation "x * y" := (nmul x y). Notation "x / y" := (ndiv x y). Notation "- x" := (nopp x).
Definition two : T := n1 + n1.
Definition sq (x : T) : T := x * x.
Definition abs (x : T) : T := if ltb x n0 then - x else x.
(* np.sign *)
Definition sgn (x : T) : T := if ltb n0 x then n1 else if ltb x n0 then - n1 else n0.

(* ---- complex numbers and small matrices (numpy) ---- *)
Definition cx : Type := (T * T)%type.
Definition creal (x : T) : cx := (x, n0).
Definition cadd (a b : cx) : cx := (fst a + fst b, snd a + snd b).
Definition cmul (a b : cx) : cx := (fst a * fst b - snd a * snd b, fst a * snd b + snd a * fst b).
Definition conj (a : cx) : cx := (fst a, - snd a).
Definition chalf (a : cx) : cx := (fst a / two, snd a / two).
Definition ceqb (a b : cx) : bool := eqb (fst a) (fst b) && eqb (snd a) (snd b).
(* np.exp(1j*np.radians(x)) *)
Definition expi (x : T) : cx := (cos_deg x, sin_deg x).
(* np.sqrt of a complex number whose imaginary part is zero *)
Definition csqrt (x : T) : cx := if ltb x n0 then (n0, root (- x)) else (root x, n0).
(* np.degrees(cmath.phase(a)) *)
Definition phase (a : cx) : T := atan2d (snd a) (fst a).
Definition csum (l : list cx) : cx := fold_right cadd (creal n0) l.
Definition rsum (l : list T) : T := fold_right nadd n0 l.
Fixpoint zip {A B C} (f : A -> B -> C) (a : list A) (b : list B) : list C :=
  match a, b with x :: a, y :: b => f x y :: zip f a b | _, _ => [] end.
Definition cdot (m : list (list cx)) (v : list cx) : list cx := map (fun r => csum (zip cmul r v)) m.
Definition rdot (m : list (list T)) (v : list T) : list T := map (fun r => rsum (zip nmul r v)) m.
Fixpoint transpose {A} (w : nat) (m : list (list A)) : list (list A) :=
  match m with [] => repeat [] w | r :: m' => zip cons r (transpose w m') end.
Definition cmat_mul (w : nat) (a b : list (list cx)) : list (list cx) :=
  map (fun r => map (fun c => csum (zip cmul r c)) (transpose w b)) a.
Definition hermite (w : nat) (m : list (list cx)) : list (list cx) := transpose w (map (map conj) m).
Definition cmat (m : list (list T)) : list (list cx) := map (map creal) m.
(* np.kron *)
Definition kron (a b : list (list cx)) : list (list cx) :=
  flat_map (fun ra => map (fun rb => flat_map (fun x => map (cmul x) rb) ra) b) a.

(* ---- 16-37 ---- *)
Definition jonesnormsq_to_intensity (x : T) : T := x / two * eps0_c.
Definition intensity_to_jonesnormsq (x : T) : T := x * two / eps0_c.
Definition kev_to_mc2 (x : T) : T := x / electron.       (* 140-141 *)

(* ---- matrices ---- *)
Definition JonesMatrixRotation (angle : T) : list (list T) :=                     (* 40-52 *)
  let c := cos_deg angle in let s := sin_deg angle in [[c; - s]; [s; c]].
Definition MuellerMatrixRotation (angle : T) : list (list T) :=                   (* 55-69 *)
  let c := cos_deg (two * angle) in let s := sin_deg (two * angle) in
  [[n1; n0; n0; n0]; [n0; c; - s; n0]; [n0; s; c; n0]; [n0; n0; n0; n1]].
Definition JonesMatrixThomson (polar : T) : list (list T) := [[n1; n0]; [n0; cos_deg polar]].      (* 72-81 *)
Definition ThomsonRotationAngle (azimuth : T) : T := azimuth - right_angle.       (* 84-94 *)
Definition ComptonRotationAngle (azimuth : T) : T := azimuth - right_angle.       (* 97-107 *)
Definition MuellerMatrixThomson (azimuth polar : T) : list (list T) :=            (* 110-137 *)
  let costh := cos_deg polar in
  let a := (n1 + sq costh) / two in
  let b := n1 - a in
  let ph := - (two * ThomsonRotationAngle azimuth) in
  let cosph := cos_deg ph in let sinph := sin_deg ph in
  [[a; b * cosph; - b * sinph; n0];
   [b; a * cosph; - a * sinph; n0];
   [n0; costh * sinph; costh * cosph; n0];
   [n0; n0; n0; costh]].
Definition MuellerMatrixCompton (azimuth polar energy : T) : list (list T) :=     (* 144-176 *)
  let costh := cos_deg polar in
  let a := (n1 + sq costh) / two in
  let b := n1 - a in
  let ph := - (two * ComptonRotationAngle azimuth) in
  let cosph := cos_deg ph in let sinph := sin_deg ph in
  let k := kev_to_mc2 energy in
  let ksc := k / (n1 + k * (n1 - costh)) in
  let c := (k - ksc) * (n1 - costh) / two in
  map (map (fun x => x * (sq ksc / sq k)))
  [[a + c; b * cosph; - b * sinph; n0];
   [b; a * cosph; - a * sinph; n0];
   [n0; costh * sinph; costh * cosph; n0];
   [n0; n0; n0; costh * (n1 + c)]].

(* ---- Jones vectors ---- *)
Definition jones : Type := (cx * cx)%type.
Definition jvec (J : jones) : list cx := [fst J; snd J].
Definition to_jvec (v : list cx) : result jones := match v with [a; b] => Ok (a, b) | _ => Err ValueError end.
Definition sqnorm (J : jones) : T := fst (csum (map (fun v => cmul v (conj v)) (jvec J))).       (* 238-256 *)
Definition jones_intensity (J : jones) : T := jonesnormsq_to_intensity (sqnorm J).               (* 278-281 *)
Definition set_jones_intensity (J : jones) (value : T) : jones :=                                 (* 283-285 *)
  let f := root (value / jones_intensity J) in (cmul (fst J) (creal f), cmul (snd J) (creal f)).
Definition coherency (J : jones) : list (list cx) := map (fun a => map (fun b => cmul a (conj b)) (jvec J)) (jvec J).   (* 287-296 *)
Definition phase0 (J : jones) : T := phase (fst J).                                              (* 367-370 *)
Definition is_hermitian (C : list (list cx)) : bool :=
  forallb (fun p => forallb (fun q => ceqb (fst q) (snd q)) (combine (fst p) (snd p))) (combine C (hermite 2 C)).
(* 298-309 *)
Definition coherency_to_jones (C : list (list cx)) (phase0 : T) : result jones :=
  if is_hermitian C then
    match C with
    | [[C00; C01]; [C10; C11]] =>
        let V0 := cmul (csqrt (fst C00)) (expi phase0) in
        let ph1 := phase C10 + phase0 in
        let V1 := cmul (csqrt (fst C11)) (expi ph1) in
        Ok (V0, V1)
    | _ => Err ValueError
    end
  else Err RuntimeError.
Definition rotate (J : jones) (angle : T) : result jones :=                                      (* 483-493 *)
  to_jvec (cdot (cmat (JonesMatrixRotation (- angle))) (jvec J)).
(* 495-509 *)
Definition thomson_jones (J : jones) (azimuth polar : T) : result jones :=
  let! J := rotate J (ThomsonRotationAngle azimuth) in
  let M := cmat (JonesMatrixThomson polar) in
  coherency_to_jones (cmat_mul 2 (cmat_mul 2 M (coherency J)) (hermite 2 M)) (phase0 J).

(* ---- Stokes vectors ---- *)
Definition stokes : Type := (T * T * T * T)%type.
Definition svec (S : stokes) : list T := let '(S0, S1, S2, S3) := S in [S0; S1; S2; S3].
Definition to_svec (v : list T) : result stokes := match v with [a; b; c; d] => Ok (a, b, c, d) | _ => Err ValueError end.
Definition imag : cx := (n0, n1).
Definition pauli44 : list (list cx) :=                                                           (* 520 *)
  let o := creal n1 in let z := creal n0 in let m := creal (- n1) in
  [[o; z; z; o]; [o; z; z; m]; [z; o; o; z]; [z; imag; conj imag; z]].
(* 634-642 *)
Definition coherency_stokes (S : stokes) : list (list cx) :=
  match map chalf (cdot (hermite 4 pauli44) (map creal (svec S))) with
  | [C00; C01; C10; C11] => [[C00; C01]; [C10; C11]]
  | _ => []
  end.
(* 647-661 *)
Definition stokes_of_coherency (C : list (list cx)) : result stokes :=
  if is_hermitian C then to_svec (map fst (cdot pauli44 (List.concat C))) else Err RuntimeError.
Definition to_stokes (J : jones) : result stokes := stokes_of_coherency (coherency J).           (* 322-325 *)
Definition intensity (S : stokes) : T := let '(S0, _, _, _) := S in jonesnormsq_to_intensity S0. (* 567-570 *)
Definition set_intensity (S : stokes) (value : T) : stokes :=                                    (* 572-574 *)
  let f := value / intensity S in let '(S0, S1, S2, S3) := S in (S0 * f, S1 * f, S2 * f, S3 * f).
Definition polarized (S : stokes) : T := let '(_, S1, S2, S3) := S in root (rsum (map sq [S1; S2; S3])).
Definition intensity_polarized (S : stokes) : T := jonesnormsq_to_intensity (polarized S).       (* 576-579 *)
Definition intensity_unpolarized (S : stokes) : T := let '(S0, _, _, _) := S in jonesnormsq_to_intensity (S0 - polarized S).  (* 581-583 *)
Definition dop (S : stokes) : T := let '(S0, _, _, _) := S in polarized S / S0.                  (* 585-589 *)
Definition dolp (S : stokes) : T := let '(S0, S1, S2, _) := S in root (rsum (map sq [S1; S2])) / S0.   (* 591-595 *)
Definition hdolp (S : stokes) : T := let '(S0, S1, _, _) := S in S1 / S0.                        (* 597-601 *)
Definition docp (S : stokes) : T := let '(S0, _, _, S3) := S in S3 / S0.                         (* 603-607 *)
Definition polangle (S : stokes) : T := let '(_, S1, S2, _) := S in atan2d S2 S1 / two.          (* 609-612 *)
Inductive hand : Type := Left | Right | NoHand.
Definition handedness (S : stokes) : hand := let '(_, _, _, S3) := S in if ltb n0 S3 then Left else if ltb S3 n0 then Right else NoHand.  (* 619-626 *)
(* 674-681: the polarized and the unpolarized part *)
Definition decompose (S : stokes) : stokes * stokes :=
  let '(S0, S1, S2, S3) := S in
  let tmp := polarized S in ((tmp, S1, S2, S3), (S0 - tmp, n0, n0, n0)).
(* 683-694 *)
Definition to_jones (S : stokes) (allowloss : bool) (phase0 : T) : result jones :=
  let d := dop S - n1 in
  let! pol :=
    if eqb d n0 then Ok S
    else if allowloss then Ok (fst (decompose S)) else Err RuntimeError in
  coherency_to_jones (coherency_stokes pol) phase0.
(* 696-719; the tangent of a right angle is infinite *)
Definition from_params (I dop dolp polangle : T) (h : hand) : result stokes :=
  if ltb dop dolp then Err RuntimeError
  else
    let S0 := intensity_to_jonesnormsq I in
    let S12 := sq (dolp * S0) in
    let S123 := sq (dop * S0) in
    let c := cos_deg (two * polangle) in
    let s := sin_deg (two * polangle) in
    let S3 := root (S123 - S12) in
    let S3 := match h with Right => - S3 | _ => S3 end in
    let S1sq := if eqb c n0 then n0 else S12 / (n1 + sq (s / c)) in
    let S1 := root S1sq * sgn c in
    let S2 := root (S12 - S1sq) * sgn s in
    Ok (S0, S1, S2, S3).
(* 730-744 *)
Definition jones_to_mueller (M : list (list cx)) : list (list cx) :=
  map (map chalf) (cmat_mul 4 (cmat_mul 4 pauli44 (kron M (hermite 2 M))) (hermite 4 pauli44)).
Definition rotate_stokes (S : stokes) (angle : T) : result stokes := to_svec (rdot (MuellerMatrixRotation (- angle)) (svec S)).      (* 749-759 *)
Definition thomson (S : stokes) (azimuth polar : T) : result stokes := to_svec (rdot (MuellerMatrixThomson azimuth polar) (svec S)).  (* 761-773 *)
Definition compton (S : stokes) (azimuth polar energy : T) : result stokes :=
  to_svec (rdot (MuellerMatrixCompton azimuth polar energy) (svec S)).                           (* 780-793 *)
(* 800-829, angles in degrees *)
Definition thomson_K (S : stokes) (azimuth polar : T) : T :=
  let '(S0, S1, S2, _) := S in
  if eqb S1 n0 && eqb S2 n0 then (n1 + sq (cos_deg polar)) / two
  else
    let a := (n1 + sq (cos_deg polar)) / two in
    let ph := two * azimuth in
    a - (n1 - a) * (S1 / S0 * cos_deg ph + S2 / S0 * sin_deg ph).
(* 831-859 *)
Definition compton_K (S : stokes) (energy azimuth polar : T) : T :=
  let '(S0, S1, S2, _) := S in
  let k := kev_to_mc2 energy in
  let costh := cos_deg polar in
  let a := (n1 + sq costh) / two in
  let ksc := k / (n1 + k * (n1 - costh)) in
  let c := (k - ksc) * (n1 - costh) / two in
  if eqb S1 n0 && eqb S2 n0 then sq ksc / sq k * (a + c)
  else
    let ph := two * azimuth in
    sq ksc / sq k * (a + c - (n1 - a) * (S1 / S0 * cos_deg ph + S2 / S0 * sin_deg ph)).
Definition thomson_intensity (S : stokes) (azimuth polar : T) : T := intensity S * thomson_K S azimuth polar.   (* 861-870 *)
Definition compton_intensity (S : stokes) (azimuth polar energy : T) : T := intensity S * compton_K S energy azimuth polar.   (* 872-884 *)
End Polarization.
Arguments cx : clear implicits. Arguments jones : clear implicits. Arguments stokes : clear implicits.
