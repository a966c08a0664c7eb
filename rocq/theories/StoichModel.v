(* Model of src/spectrocrunch/materials/stoichiometry.py and of the composition part of
   materials/compound.py, mixture.py and multielementbase.py.  Numbers are exact.
   Dividing by zero (numpy: warns, the result is not finite) is ZeroDivisionError here.
   Broadcasting of one-element arrays is not modelled: lengths that differ are refused. *)
From Verif Require Export FitModel.
From Coq Require String.

Definition divs (x y : list Qc) : result (list Qc) :=
  if negb (length x =? length y)%nat then Err ValueError
  else if existsb (fun q => Qc_eqb q 0) y then Err ZeroDivisionError
  else Ok (map (fun p => fst p / snd p)%Qc (combine x y)).
Definition scale (a : Qc) (x : list Qc) : list Qc := map (Qcmult a) x.
Definition div1 (x : list Qc) (s : Qc) : result (list Qc) :=
  if Qc_eqb s 0 && negb (length x =? 0)%nat then Err ZeroDivisionError else Ok (map (fun q => q / s)%Qc x).
Definition qdiv (a b : Qc) : result Qc := if Qc_eqb b 0 then Err ZeroDivisionError else Ok (a / b)%Qc.

(* materials/stoichiometry.py:42-48 *)
Definition frac_mole_to_weight (nfrac MM : list Qc) : result (list Qc) :=
  let! nm := times nfrac MM in div1 nm (qsum nm).
(* 51-57 *)
Definition frac_weight_to_mole (wfrac MM : list Qc) : result (list Qc) :=
  let! q := divs wfrac MM in divs wfrac (scale (qsum q) MM).
(* 60-66 *)
Definition molarmass_from_wfrac (wfrac MM : list Qc) : result Qc :=
  let! q := divs wfrac MM in qdiv 1 (qsum q).
(* 69-75 *)
Definition frac_weight_to_volume (wfrac rho : list Qc) : result (list Qc) :=
  let! q := divs wfrac rho in divs wfrac (scale (qsum q) rho).
(* 78-84 *)
Definition frac_volume_to_weight (vfrac rho : list Qc) : result (list Qc) :=
  let! q := times vfrac rho in div1 q (qsum q).
(* 87-94 *)
Definition frac_volume_to_mole (vfrac rho MM : list Qc) : result (list Qc) :=
  let! vr := times vfrac rho in
  let! q := divs vr MM in
  divs vr (scale (qsum q) MM).
(* 97-104 *)
Definition frac_mole_to_volume (nfrac rho MM : list Qc) : result (list Qc) :=
  let! nm := times nfrac MM in
  let! q := divs nm rho in
  divs nm (scale (qsum q) rho).
(* 107-113 *)
Definition density_from_volumefrac (vfrac rho : list Qc) : result Qc :=
  let! q := times vfrac rho in Ok (qsum q).
(* 116-122 *)
Definition density_from_massfrac (wfrac rho : list Qc) : result Qc :=
  let! q := divs wfrac rho in qdiv 1 (qsum q).
(* 125-132 *)
Definition density_from_molefrac (nfrac rho MM : list Qc) : result Qc :=
  let! nm := times nfrac MM in
  let! q := divs nm rho in
  qdiv (qsum nm) (qsum q).
(* 135-147 add_frac *)
Definition add_frac (x newfracs : list Qc) : result (list Qc) :=
  let nsum := qsum newfracs in
  if Qc_ltb 1 nsum then Err ValueError
  else
    let xsum := qsum x in
    Ok (scale (Qc_max (1 - nsum) 0) x ++ map (fun q => q * xsum)%Qc newfracs).

Inductive kind : Type := Mass | Mole | Volume.     (* materials/types.py fraction *)

(* A dict with numbers as values: the pairs in insertion order.  d[k] += v, or d[k] = v
   when the key is new. *)
Fixpoint dict_add {K} (eqb : K -> K -> bool) (d : list (K * Qc)) (k : K) (v : Qc) : list (K * Qc) :=
  match d with
  | [] => [(k, v)]
  | (k', v') :: d => if eqb k' k then (k', v' + v)%Qc :: d else (k', v') :: dict_add eqb d k v
  end.
(* for k, v in zip(keys, values): compound.py:67-75 _compose_elements and mixture.py:40-46
   _compose_compounds *)
Definition compose {K} (eqb : K -> K -> bool) (ks : list K) (vs : list Qc) : list (K * Qc) :=
  fold_left (fun d p => dict_add eqb d (fst p) (snd p)) (combine ks vs) [].

(* Elements are known by their atomic number; the molar masses and densities of the
   elements (xraylib) are parameters. *)
Record elements_data : Type := { emass : nat -> Qc; edens : nat -> Qc }.
Record compound : Type := { cname : String.string; cparts : list (nat * Qc); cdensity : Qc }.
Definition compound_eqb (a b : compound) : bool := String.eqb (cname a) (cname b).   (* utils/comparable.py: by name *)
Definition mixture : Type := list (compound * Qc).

Section Materials.
Context (T : elements_data).

(* materials/compound.py:14-66 __init__; the density None or 0 is replaced *)
Definition new_compound (name : String.string) (els : list nat) (frac : list Qc) (k : kind) (density : option Qc) : result compound :=
  let! nfrac :=
    match k with
    | Mole => Ok frac
    | Volume => Err ValueError
    | Mass => frac_weight_to_mole frac (map (emass T) els)
    end in
  let parts := compose Nat.eqb els nfrac in
  let default := match parts with [] => 0%Qc | [(e, _)] => edens T e | _ => 1%Qc end in
  let dens := match density with None => default | Some q => if Qc_eqb q 0 then default else q end in
  Ok {| cname := name; cparts := parts; cdensity := dens |}.
(* 159-163 molarmass, and the lists used by the others *)
Definition cmasses (c : compound) : list Qc := map (fun p => emass T (fst p)) (cparts c).
Definition molarmass (c : compound) : Qc := qsum (map (fun p => emass T (fst p) * snd p)%Qc (cparts c)).
(* 178-181 molefractions *)
Definition cmolefractions (c : compound) : result (list (nat * Qc)) :=
  let! f := div1 (map snd (cparts c)) (qsum (map snd (cparts c))) in Ok (combine (map fst (cparts c)) f).
(* 186-190 massfractions *)
Definition cmassfractions (c : compound) : result (list (nat * Qc)) :=
  let! f := frac_mole_to_weight (map snd (cparts c)) (cmasses c) in Ok (combine (map fst (cparts c)) f).
(* 94-124 addelements *)
Definition addelements (c : compound) (els : list nat) (fracs : list Qc) (k : kind) (density : option Qc) : result compound :=
  let! parts :=
    match k with
    | Volume => Err ValueError
    | Mole => let! n := add_frac (map snd (cparts c)) fracs in Ok (compose Nat.eqb (map fst (cparts c) ++ els) n)
    | Mass =>
        let! w := cmassfractions c in
        let! w' := add_frac (map snd w) fracs in
        let els := map fst w ++ els in
        let! n := frac_weight_to_mole w' (map (emass T) els) in
        Ok (compose Nat.eqb els n)
    end in
  let dens := match density with None => cdensity c | Some q => if Qc_eqb q 0 then cdensity c else q end in
  Ok {| cname := cname c; cparts := parts; cdensity := dens |}.

(* materials/mixture.py:12-38 __init__ and 99-117 change_fractions: the mole amounts *)
Definition amounts (cs : list compound) (fracs : list Qc) (k : kind) : result (list Qc) :=
  match k with
  | Mole => Ok fracs
  | Volume => frac_volume_to_mole fracs (map cdensity cs) (map molarmass cs)
  | Mass => frac_weight_to_mole fracs (map molarmass cs)
  end.
Definition new_mixture (cs : list compound) (fracs : list Qc) (k : kind) : result mixture :=
  let! n := amounts cs fracs k in Ok (compose compound_eqb cs n).
(* 167-170 molefractions, 175-179 massfractions, 181-188 volumefractions, 190-196 fractions *)
Definition fractions_of (m : mixture) (k : kind) : result (list (compound * Qc)) :=
  let cs := map fst m in
  let n := map snd m in
  let! f :=
    match k with
    | Mole => div1 n (qsum n)
    | Volume => frac_mole_to_volume n (map cdensity cs) (map molarmass cs)
    | Mass => frac_mole_to_weight n (map molarmass cs)
    end in
  Ok (combine cs f).
(* 63-97 addcompounds *)
Definition addcompounds (m : mixture) (cs : list compound) (fracs : list Qc) (k : kind) : result mixture :=
  let! f := match k with Mole => Ok m | _ => fractions_of m k end in
  let! f' := add_frac (map snd f) fracs in
  let cs := map fst f ++ cs in
  let! n := amounts cs f' k in
  Ok (compose compound_eqb cs n).
(* 202-208 density *)
Definition mdensity (m : mixture) : result Qc :=
  density_from_molefrac (map snd m) (map (fun p => cdensity (fst p)) m) (map (fun p => molarmass (fst p)) m).
(* 210-244 the elemental compositions.  The parts of each compound, with the weight of
   the compound; adding to a dict *)
Definition collect (l : list (list (nat * Qc) * Qc)) : list (nat * Qc) :=
  fold_left (fun d p => fold_left (fun d q => dict_add Nat.eqb d (fst q) (snd p * snd q)%Qc) (fst p) d) l [].
Fixpoint each {A} (f : compound -> result A) (m : list (compound * Qc)) : result (list (A * Qc)) :=
  match m with
  | [] => Ok []
  | (c, w) :: m => let! a := f c in let! r := each f m in Ok ((a, w) :: r)
  end.
Definition elemental_equivalents (m : mixture) : list (nat * Qc) :=
  collect (map (fun p => (cparts (fst p), snd p)) m).
Definition elemental_massfractions (m : mixture) : result (list (nat * Qc)) :=
  let! f := fractions_of m Mass in let! l := each cmassfractions f in Ok (collect l).
Definition elemental_molefractions (m : mixture) : result (list (nat * Qc)) :=
  let! f := fractions_of m Mole in let! l := each cmolefractions f in Ok (collect l).
(* 147-151 molarmass *)
Definition mmolarmass (m : mixture) : Qc :=
  qsum (map (fun p => emass T (fst p) * snd p)%Qc (elemental_equivalents m)).
(* 119-129 tocompound *)
Definition tocompound (name : String.string) (m : mixture) : result compound :=
  let p := elemental_equivalents m in
  let! d := mdensity m in
  new_compound name (map fst p) (map snd p) Mole (Some d).

(* materials/multielementbase.py:19-42 setfraction (a list of parts) on Python 3; a part
   named twice is a KeyError of w2.pop;  np.asarray(w2.values())
   is an array holding the dict view; 1 - ... divided by its sum is a TypeError *)
Fixpoint repeated (cs : list compound) : bool :=
  match cs with [] => false | c :: cs => existsb (compound_eqb c) cs || repeated cs end.
Definition setfraction (m : mixture) (cs : list compound) (values : list Qc) (k : kind) : result mixture :=
  if negb (forallb (fun c => existsb (fun p => compound_eqb c (fst p)) m) cs) then Err RuntimeError
  else
    let! w := fractions_of m k in
    if repeated cs then Err KeyError
    else if existsb (fun p => negb (existsb (fun c => compound_eqb c (fst p)) cs)) w then Err TypeError
    else new_mixture (map fst w)
           (map (fun p => match find (fun q => compound_eqb (fst q) (fst p)) (rev (combine cs values)) with Some q => snd q | None => snd p end) w) k.
End Materials.
