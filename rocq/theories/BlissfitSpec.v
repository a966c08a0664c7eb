(* Predicates for the properties of fits of several detectors *)
From Verif Require Export BlissfitModel.
Local Open Scope list_scope.
Local Open Scope nat_scope.

(* the values of a signal *)
Definition value (d : groups) (g s : string) : option (list Qc) :=
  match lookup String.eqb g d with Some sigs => lookup String.eqb s sigs | None => None end.
(* names of signals are unique in a group *)
Definition proper (d : groups) : Prop := forall g sigs, lookup String.eqb g d = Some sigs -> NoDup (map fst sigs).
(* element k of a signal summed over the detectors that have the signal with n elements *)
Fixpoint sum_over (l : list groups) (g s : string) (n k : nat) : Qc :=
  match l with
  | [] => 0%Qc
  | d :: l' => (match value d g s with Some u => if List.length u =? n then nth k u 0%Qc else 0%Qc | None => 0%Qc end + sum_over l' g s n k)%Qc
  end.
