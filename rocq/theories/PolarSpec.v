(* Vocabulary for the statements about sources/polarization.py: the numbers are Coq's real numbers. *)
From Verif Require Export PolarModel.
From Coq Require Export Reals.
Local Open Scope R_scope.

(* np.arctan2, in radians *)
Definition arctan2 (y x : R) : R :=
  if Rlt_dec 0 x then atan (y / x)
  else if Rlt_dec x 0 then (if Rlt_dec y 0 then atan (y / x) - PI else atan (y / x) + PI)
  else if Rlt_dec 0 y then PI / 2 else if Rlt_dec y 0 then - (PI / 2) else 0.
Definition reals (eps el : R) : arith :=
  mkArith R 0 1 Rplus Rminus Rmult Rdiv Ropp
    (fun x => cos (x * PI / 180)) (fun x => sin (x * PI / 180)) (fun y x => arctan2 y x * 180 / PI) sqrt
    (fun x y => if Rlt_dec x y then true else false) (fun x y => if Req_EM_T x y then true else false) 90 eps el.

(* a Stokes vector of a real wave: no more polarized than everything together *)
Definition physical (S : R * R * R * R) : Prop := let '(S0, S1, S2, S3) := S in 0 <= S0 /\ S1 ^ 2 + S2 ^ 2 + S3 ^ 2 <= S0 ^ 2.
Definition lit (S : R * R * R * R) : Prop := let '(S0, _, _, _) := S in 0 < S0.
(* the intensity of one component, and the real and imaginary part of V1 conj(V0) *)
Definition modulus2 (v : R * R) : R := fst v ^ 2 + snd v ^ 2.
Definition cross (v w : R * R) : R * R := (fst w * fst v + snd w * snd v, snd w * fst v - fst w * snd v).
(* the Stokes vector of a Jones vector, by definition *)
Definition stokes_def (J : (R * R) * (R * R)) : R * R * R * R :=
  let (v, w) := J in (modulus2 v + modulus2 w, modulus2 v - modulus2 w, 2 * fst (cross v w), 2 * snd (cross v w)).
Definition add4 (S U : R * R * R * R) : R * R * R * R :=
  let '(a, b, c, d) := S in let '(a', b', c', d') := U in (a + a', b + b', c + c', d + d').
(* cos and sin of an angle in degrees *)
Definition cosine (x : R) : R := cos (x * PI / 180).
Definition sine (x : R) : R := sin (x * PI / 180).
(* the averages over the two directions of polarization of the Thomson cross-section, at polar angle th:
   (1 + cos^2 th) / 2 and (1 - cos^2 th) / 2 *)
Definition A_ (polar : R) : R := (1 + cosine polar ^ 2) / 2.
Definition B_ (polar : R) : R := (1 - cosine polar ^ 2) / 2.
(* Compton: the energy after scattering over the energy before, for an energy of k electron masses,
   and the extra term of Klein and Nishina, k (1 - ratio) (1 - cos th) / 2 *)
Definition ratio (k po : R) : R := 1 / (1 + k * (1 - cosine po)).
Definition extra (k po : R) : R := (k - k * ratio k po) * (1 - cosine po) / 2.
Definition signed (h : hand) (x : R) : R := match h with Right => - x | _ => x end.
(* a matrix of a device acting on a wave *)
Definition apply_jones (eps el : R) (M : list (list (R * R))) (J : (R * R) * (R * R)) : result ((R * R) * (R * R)) := @to_jvec (reals eps el) (@cdot (reals eps el) M (@jvec (reals eps el) J)).
Definition apply_mueller (eps el : R) (M : list (list (R * R))) (S : R * R * R * R) : list (R * R) := @cdot (reals eps el) M (map (@creal (reals eps el)) (@svec (reals eps el) S)).
