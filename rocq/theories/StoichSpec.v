(* Vocabulary for compositions *)
From Coq Require Import String.
From Verif Require Export StoichModel.
Local Open Scope Qc_scope.

Definition nonneg (l : list Qc) : Prop := Forall (Qcle 0) l.
Definition positive (l : list Qc) : Prop := Forall (Qclt 0) l.
(* fractions (not all zero), molar masses and densities of the same components *)
Definition valid (f rho MM : list Qc) : Prop :=
  length rho = length f /\ length MM = length f /\ nonneg f /\ 0 < qsum f /\ positive rho /\ positive MM.

(* the amount of kind b of a component of which the amount of kind a is f *)
Definition amount (a b : kind) (f rho MM : Qc) : Qc :=
  let moles := match a with Mole => f | Mass => f / MM | Volume => f * rho / MM end in
  match b with Mole => moles | Mass => moles * MM | Volume => moles * MM / rho end.
(* the conversion from fractions of kind a to fractions of kind b *)
Definition conv (a b : kind) (f rho MM : list Qc) : result (list Qc) :=
  match a, b with
  | Mole, Mass => frac_mole_to_weight f MM
  | Mass, Mole => frac_weight_to_mole f MM
  | Mass, Volume => frac_weight_to_volume f rho
  | Volume, Mass => frac_volume_to_weight f rho
  | Volume, Mole => frac_volume_to_mole f rho MM
  | Mole, Volume => frac_mole_to_volume f rho MM
  | Mass, Mass | Mole, Mole | Volume, Volume => Err NotImplementedError
  end.

(* the total of the entries with the key *)
Definition share {K} (eqb : K -> K -> bool) (k : K) (d : list (K * Qc)) : Qc :=
  qsum (map (fun p => if eqb (fst p) k then snd p else 0) d).
Definition total {K} (d : list (K * Qc)) : Qc := qsum (map snd d).
Definition no_repeats {K} (eqb : K -> K -> bool) (ks : list K) : Prop :=
  ForallOrdPairs (fun a b => eqb a b = false) ks.

Section Materials.
Context (T : elements_data).
(* compounds with the same name are the same *)
Definition identified (cs : list compound) : Prop :=
  forall a b, In a cs -> In b cs -> cname a = cname b -> a = b.
Definition real_compound (c : compound) : Prop :=
  no_repeats Nat.eqb (map fst (cparts c)) /\ nonneg (map snd (cparts c)) /\ 0 < total (cparts c) /\ 0 < cdensity c /\
  forall p, In p (cparts c) -> 0 < emass T (fst p).
Definition real_mixture (m : mixture) : Prop :=
  no_repeats compound_eqb (map fst m) /\ nonneg (map snd m) /\ 0 < total m /\ forall p, In p m -> real_compound (fst p).
(* mass of an element, and in total, in the mixture *)
Definition element_mass (e : nat) (m : mixture) : Qc :=
  qsum (map (fun p => snd p * share Nat.eqb e (cparts (fst p)) * emass T e) m).
Definition total_mass (m : mixture) : Qc := qsum (map (fun p => snd p * molarmass T (fst p)) m).
End Materials.

(* the fractions of the elements of a compound (compound.py:201-208 fractions) *)
Definition cfractions (T : elements_data) (c : compound) (k : kind) : result (list (nat * Qc)) :=
  match k with Mass => cmassfractions T c | Mole => cmolefractions c | Volume => Err ValueError end.

(* a small instance: hydrogen, oxygen, sodium and chlorine; water and salt *)
Definition ex_T : elements_data :=
  {| emass := fun z => match z with 1%nat => 1 | 8%nat => Qc_of_Z 16 | 11%nat => Qc_of_Z 23 | 17%nat => Qc_of_Z 35 | _ => 1 end; edens := fun _ => 1 |}.
Definition ex_water : compound := {| cname := "water"%string; cparts := [(1%nat, Qc_of_Z 2); (8%nat, 1)]; cdensity := 1 |}.
Definition ex_salt : compound := {| cname := "salt"%string; cparts := [(11%nat, 1); (17%nat, 1)]; cdensity := Qc_of_Z 2 |}.
Definition ex_brine : mixture := [(ex_water, 1); (ex_salt, 1)].
