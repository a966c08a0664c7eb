(* Model of small numerical functions, over exact rationals:
   src/spectrocrunch/visualization/colormap.py 7-22 (NormalizedToRGB) and 29-47,
   src/spectrocrunch/math/statistics.py 8-40 (outlierdetection),
   src/spectrocrunch/math/interpolate.py 27-60 (interp1d_floor, interp1d_ceil),
   src/spectrocrunch/math/utils.py 16-43, 62-80 (rounding, weightedsum, lcm).
   Floating point rounding, infinities and NaN inputs are not modelled. *)
From Verif Require Export Base QcTac.
From Coq Require Import Qround.
Local Open Scope Qc_scope.

Definition floor (x : Qc) : Z := Qfloor (this x).
Definition ceil (x : Qc) : Z := Qceiling (this x).
Definition half : Qc := Q2Qc (1 # 2).
(* np.round, np.rint: to the nearest, halves to even *)
Definition rint (x : Qc) : Z :=
  let f := floor x in
  let d := x - Qc_of_Z f in
  if Qc_ltb d half then f
  else if Qc_ltb half d then (f + 1)%Z
  else if Z.even f then f else (f + 1)%Z.

(* ---- colormap.py ---- *)
Definition top : Z := (2 ^ 24 - 1)%Z.
Definition rgb (x : Qc) : Z * Z * Z :=
  let c := rint (x * Qc_of_Z top) in
  (Z.land c 255, Z.land (Z.shiftr c 8) 255, Z.land (Z.shiftr c 16) 255).
(* 29-47, a number: (r, g, b, alpha), as bytes or divided by 255 *)
Definition colour (x : Qc) (alpha : Qc) (bytes : bool) : Qc * Qc * Qc * Qc :=
  let '(r, g, b) := rgb x in
  let f v := if bytes then Qc_of_Z v else Qc_of_Z v / Qc_of_Z 255 in
  (f r, f g, f b, alpha).

(* ---- statistics.py ---- *)
Fixpoint put (x : Qc) (l : list Qc) : list Qc :=
  match l with
  | [] => [x]
  | y :: l' => if Qc_leb x y then x :: l else y :: put x l'
  end.
Fixpoint order (l : list Qc) : list Qc := match l with [] => [] | x :: l' => put x (order l') end.
(* np.median; NaN for no data, which is not used below *)
Definition median (l : list Qc) : Qc :=
  let u := order l in
  let k := Nat.div2 (length l) in
  if Nat.odd (length l) then nth k u 0
  else (nth (k - 1) u 0 + nth k u 0) / (1 + 1).
Definition deviations (x : list Qc) : list Qc :=
  let m := median x in map (fun v => Qc_abs (v - m)) x.
Definition normal_factor : Qc := Q2Qc (14826 # 10000).
(* the indices [0:n] of a list *)
Definition py_first {A} (n : Z) (l : list A) : list A :=
  if (n <? 0)%Z then firstn (Z.to_nat (Z.of_nat (length l) + n)) l else firstn (Z.to_nat n) l.
(* argsort: any function that sorts (the order of equal values is numpy's choice) *)
Definition outliers (argsort : list Qc -> list nat) (x : list Qc) (nsigma : Qc) (normal : bool) (noutliers : Z)
  : list bool :=
  let diff := deviations x in
  if negb (noutliers =? 0)%Z then
    let first := py_first noutliers (argsort (map Qcopp diff)) in
    map (fun i => existsb (Nat.eqb i) first) (seq 0 (length x))
  else
    let mad := if normal then normal_factor * median diff else median diff in
    if Qc_eqb mad 0 then map (fun _ => false) x
    else map (fun d => Qc_ltb nsigma (d / mad)) diff.

(* ---- interpolate.py ---- *)
(* np.where(test xs)[0] *)
Fixpoint where_from (i : nat) (test : Qc -> bool) (xs : list Qc) : list nat :=
  match xs with
  | [] => []
  | a :: xs' => if test a then i :: where_from (S i) test xs' else where_from (S i) test xs'
  end.
(* None: NaN *)
Definition at_index (ys : list Qc) (i : nat) : result (option Qc) :=
  match nth_error ys i with Some y => Ok (Some y) | None => Err IndexError end.
Definition interp_floor (xs ys : list Qc) (x : Qc) : result (option Qc) :=
  match rev (where_from 0 (fun a => Qc_leb a x) xs) with
  | [] => Ok None
  | i :: _ => at_index ys i
  end.
Definition interp_ceil (xs ys : list Qc) (x : Qc) : result (option Qc) :=
  match where_from 0 (fun a => Qc_leb x a) xs with
  | [] => Ok None
  | i :: _ => at_index ys i
  end.
(* 35-39, 52-56: a number has no iterator; for an array Python 3 makes an array of one map object *)
Inductive request : Type := Number (x : Qc) | Array (l : list Qc).
Inductive answer : Type := Value (v : option Qc) | MapObject.
Definition call (pointwise : Qc -> result (option Qc)) (r : request) : result answer :=
  match r with
  | Number x => let! v := pointwise x in Ok (Value v)
  | Array _ => Ok MapObject
  end.

(* ---- utils.py ---- *)
(* 10**n *)
Definition pow10 (n : Z) : Qc :=
  if (0 <=? n)%Z then Qc_of_Z (10 ^ n) else / Qc_of_Z (10 ^ (- n)).
Definition ceil_ndigits (x : Qc) (n : Z) : Qc := Qc_of_Z (ceil (x * pow10 n)) / pow10 n.
Definition floor_ndigits (x : Qc) (n : Z) : Qc := Qc_of_Z (floor (x * pow10 n)) / pow10 n.
(* np.round(x, n): scales by 10**n, or divides by 10**-n *)
Definition round_ndigits (x : Qc) (n : Z) : Qc := Qc_of_Z (rint (x * pow10 n)) / pow10 n.
(* floor(log10(a/b)) for a, b > 0, from the numbers of digits *)
Fixpoint ndigits_from (fuel : nat) (a : Z) : Z :=
  match fuel with O => 0 | S f => if (a <? 10)%Z then 1 else (1 + ndigits_from f (a / 10))%Z end.
Definition ndigits (a : Z) : Z := ndigits_from (S (Z.to_nat (Z.log2 a))) a.
Definition floor_log10 (x : Qc) : Z :=
  let a := Qnum (this x) in
  let b := Zpos (Qden (this x)) in
  let d := (ndigits a - ndigits b)%Z in
  if Qc_leb (pow10 d) x then d else (d - 1)%Z.
(* 16-17; math.log10(0) is a ValueError *)
Definition sig_to_ndigits (x : Qc) (sig : Z) : result Z :=
  if Qc_eqb x 0 then Err ValueError else Ok (sig - floor_log10 (Qc_abs x) - 1)%Z.
Definition round_sig (x : Qc) (sig : Z) : result Qc := let! n := sig_to_ndigits x sig in Ok (round_ndigits x n).
Definition ceil_sig (x : Qc) (sig : Z) : result Qc := let! n := sig_to_ndigits x sig in Ok (ceil_ndigits x n).
Definition floor_sig (x : Qc) (sig : Z) : result Qc := let! n := sig_to_ndigits x sig in Ok (floor_ndigits x n).
(* 62-71; array: a numpy array (otherwise a list), None: NaN or infinite *)
Inductive values : Type := One (v : Qc) | Many (array : bool) (l : list Qc).
Definition total (l : list Qc) : Qc := fold_right Qcplus 0 l.
Definition quotient (a b : Qc) : option Qc := if Qc_eqb b 0 then None else Some (a / b).
Definition weightedsum (v : values) (weights : option values) : result (option Qc) :=
  match v with
  | One v => Ok (Some v)
  | Many _ [v] => Ok (Some v)
  | Many a l =>
      match weights with
      | None | Some (One _) => Ok (quotient (total l) (Qc_of_Z (Z.of_nat (length l))))     (* np.mean *)
      | Some (Many a' ws) =>
          if negb (a || a') then Err TypeError                       (* list * list *)
          else
            match ws with
            | [w] => Ok (quotient (total (map (fun v => v * w) l)) w)      (* broadcast *)
            | _ =>
                if Nat.eqb (length l) (length ws) then
                  match ws with
                  | [] => Err ZeroDivisionError                      (* 0/0 of Python integers *)
                  | _ => Ok (quotient (total (map (fun p => fst p * snd p) (combine l ws))) (total ws))
                  end
                else Err ValueError
            end
      end
  end.
(* 74-78 *)
Fixpoint lcm_from (m : Z) (l : list Z) : result Z :=
  match l with
  | [] => Ok m
  | i :: l' =>
      let g := Z.gcd m i in
      if (g =? 0)%Z then Err ZeroDivisionError else lcm_from (m * i / g)%Z l'
  end.
Definition lcm (l : list Z) : result Z := lcm_from 1 l.
