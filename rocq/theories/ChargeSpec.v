From Verif Require Import ChargeModel.
Local Open Scope Qc_scope.

(* sum of w f(e) over lines of energy e and weight w *)
Fixpoint sum_lines (es ws : list Qc) (f : Qc -> Qc) : Qc := match es, ws with e :: es', w :: ws' => w * f e + sum_lines es' ws' f | _, _ => 0 end.
Fixpoint sum (l : list Qc) : Qc := match l with [] => 0 | x :: l' => x + sum l' end.
Fixpoint product (l : list Qc) : Qc := match l with [] => 1 | x :: l' => x * product l' end.
(* weights that sum to one, in the same proportions *)
Definition normalised (w w' : list Qc) : Prop := sum w' = 1 /\ Forall2 (fun a b => a = sum w * b) w w'.
(* from the source to the sample *)
Definition to_sample (d : device) (e : Qc) : Qc :=
  product (map (fun f => f e) (optics d)) *
  (if before d then source_filter d e * match target d with None => diode_trans d e * det_filter d e | Some _ => target_trans d e end else 1).
(* a spectrum proportional to the solid angle *)
Definition proportional (s : Qc -> list Qc -> list Qc -> list (Qc * Qc)) : Prop :=
  forall a b es ws, b <> 0 -> s a es ws = map (fun p => (fst p, a / b * snd p)) (s b es ws).
Definition flux_inside (lo hi : option Qc) (x : Qc) : Prop := (forall a, lo = Some a -> a <= x) /\ (forall b, hi = Some b -> x <= b).
