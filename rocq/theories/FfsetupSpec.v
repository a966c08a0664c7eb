(* Predicates for the amount of a compound *)
From Verif Require Export FfsetupModel.
Local Open Scope list_scope.
Local Open Scope nat_scope.

Fixpoint total (f : fractions) : Qc := match f with [] => 0%Qc | (_, v) :: f' => (v + total f')%Qc end.
(* of all compounds but one *)
Fixpoint others (name : string) (f : fractions) : Qc :=
  match f with [] => 0%Qc | (k, v) :: f' => if string_dec k name then others name f' else (v + others name f')%Qc end.
