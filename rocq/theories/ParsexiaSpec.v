(* What the theorems about XIA files refer to. *)
From Verif Require Export ParsexiaModel.
Local Open Scope list_scope.
(* the detectors of a list of parsed files that are not excluded *)
Definition kept (exclude : list nat) (x : list xfile) : list nat := filter (fun d => negb (existsb (Nat.eqb d) exclude)) (flat_map (fun x => match x with Spectra f => [detector f] | Stat => [] end) x).
