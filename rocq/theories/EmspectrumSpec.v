From Verif Require Export EmspectrumModel LutSpec.
Local Open Scope Qc_scope.
(* [built l t]: the spectrum t is made of the lines and intensities l, in this order, with any number of additions *)
Inductive built : list (Qc * Qc) -> lut -> Prop :=
  | built_new x y t : length x = length y -> discrete (Some x) (Some y) = Ok t -> built (combine x y) t
  | built_plus l t x y t' : built l t -> length x = length y -> discrete_plus t x y = Ok (Some t') -> built (l ++ combine x y) t'.
(* sums over lines *)
Definition weighted (f : Qc -> Qc) (l : list (Qc * Qc)) : Qc := sum (map (fun p => snd p * f (fst p)) l).
Definition intensity (l : list (Qc * Qc)) : Qc := sum (map snd l).
