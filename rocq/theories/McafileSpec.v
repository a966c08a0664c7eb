(* A reader of spectra in the SPEC format, for the statements *)
From Verif Require Import McafileModel.
Local Open Scope list_scope.

(* numbers up to the end of a line that is not continued, and what follows *)
Fixpoint scan_numbers (t : list tok) : option (list Qc * list tok) :=
  match t with
  | Num x :: t' => match scan_numbers t' with Some (l, r) => Some (x :: l, r) | None => None end
  | Cont :: Newline :: t' => scan_numbers t'
  | Newline :: t' => Some ([], t')
  | _ => None
  end.
Definition scan_mca (t : list tok) : option (list Qc * list tok) := match t with Start :: t' => scan_numbers t' | _ => None end.
