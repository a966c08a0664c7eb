(* Model of src/spectrocrunch/process/nxlazy.py: lazy expressions of images, for one pixel.
   The functions that reduce a list (sum, nansum, nanmean, nanmax) get a generator (unpackargs=False), the others get their
   arguments, as in process/nxpymca.py. Floating point rounding and reading of files are not modelled. *)
From Verif Require Export Base QcTac LinopModel.
From Coq Require Export String.
Local Open Scope list_scope.
Local Open Scope nat_scope.

(* nxlazy.py:7-143: functions. [Fnorm i fl dt] is xrfnorm with the arguments of image i: flux normalised or not, detector
   number for the dead time or None; [Fother n] any other function *)
Inductive fn : Type := Fsum | Fnansum | Fnanmean | Fnanmax | Ftransmission | Fnorm (i : nat) (fl : bool) (dt : option Z) | Fother (n : nat).
(* 11-12: the names, 14-15 equality of names *)
Definition fn_eqb (f g : fn) : bool :=
  match f, g with
  | Fsum, Fsum | Fnansum, Fnansum | Fnanmean, Fnanmean | Fnanmax, Fnanmax | Ftransmission, Ftransmission | Fnorm _ _ _, Fnorm _ _ _ => true
  | Fother n, Fother m => n =? m
  | _, _ => false
  end.
(* 74-143 samemerge *)
Definition samemerge (f : fn) : bool := match f with Fsum | Fnansum | Fnanmean | Fnanmax => true | _ => false end.
(* 20-24 *)
Definition merge (f g : fn) : bool := if fn_eqb f g then samemerge f else false.

(* 194-229 LazyStackSlice: a function and its arguments; other arguments are leaves *)
Inductive arg (A : Type) : Type := Leaf (a : A) | Slice (f : fn) (l : list (arg A)).
Arguments Leaf {A} a.
Arguments Slice {A} f l.
(* 216-221 appendarg *)
Definition appendarg {A} (f : fn) (l : list (arg A)) (a : arg A) : arg A :=
  match a with
  | Slice g m => if merge f g then Slice f (l ++ m) else Slice f (l ++ [a])
  | Leaf _ => Slice f (l ++ [a])
  end.

(* numpy reductions over the values of one pixel *)
Definition nums (l : list num) : list num := filter (fun x => negb (is_nan x)) l.
Definition n_sum (l : list num) : num := fold_left n_add l (Fin 0).
Definition n_max (a b : num) : num := if n_ltb a b then b else a.
Definition nanmean (l : list num) : num :=
  match nums l with [] => NaN | m => n_div (n_sum m) (Fin (Qc_of_Z (Z.of_nat (List.length m)))) end.
Definition nanmax (l : list num) : result num :=
  match l with
  | [] => Err ValueError
  | _ => match nums l with [] => Ok NaN | x :: m => Ok (fold_left n_max m x) end
  end.
Section Eval.
Variable A : Type.
Variable leaf : A -> result num.
Variable fluxref flux : nat -> result num.       (* of an image *)
Variable dtcor : nat -> Z -> num.                (* of an image and detector *)
Variable other : nat -> list num -> result num.
(* 50-66 xrfnorm with xiaedf.py:765-768 normalizer *)
Definition xrfnorm (i : nat) (fl : bool) (dt : option Z) (x : num) : result num :=
  let! norm :=
    if fl then
      let! r := fluxref i in
      let! q := flux i in
      match r with
      | Fin z => if Qc_eqb z 0 then Ok (Fin 1) else Ok (n_div r (match q with Fin w => if Qc_eqb w 0 then Fin 1 else q | _ => q end))
      | _ => Ok (n_div r (match q with Fin w => if Qc_eqb w 0 then Fin 1 else q | _ => q end))
      end
    else Ok (Fin 1) in
  Ok (n_mul (n_mul x norm) (match dt with Some d => dtcor i d | None => Fin 1 end)).
Definition apply (f : fn) (l : list num) : result num :=
  match f with
  | Fsum => Ok (n_sum l)
  | Fnansum => Ok (n_sum (nums l))
  | Fnanmean => Ok (nanmean l)
  | Fnanmax => nanmax l
  | Ftransmission => match l with [a; b] => Ok (n_div a b) | _ => Err TypeError end
  | Fnorm i fl dt => match l with [x] => xrfnorm i fl dt x | _ => Err TypeError end
  | Fother n => other n l
  end.
(* 204-214 data *)
Fixpoint eval (a : arg A) : result num :=
  match a with
  | Leaf x => leaf x
  | Slice f l =>
      let! xs := mapM eval l in
      apply f xs
  end.
End Eval.
