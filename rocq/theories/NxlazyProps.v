From Verif Require Import SumdetSort.
Local Open Scope list_scope.
Local Open Scope nat_scope.

(* adding a sum to a sum merges them: the value is that of the sum of sums *)
Theorem C109_sum : forall A leaf fluxref flux dtcor other (l m : list (arg A)),
  eval A leaf fluxref flux dtcor other (appendarg Fsum l (Slice Fsum m)) = eval A leaf fluxref flux dtcor other (Slice Fsum (l ++ [Slice Fsum m])).
Proof. exact @merge_sum. Qed.
Print Assumptions C109_sum.
(* the largest of the largest *)
Theorem C109_max : forall A leaf fluxref flux dtcor other (l m : list (arg A)), m <> [] ->
  eval A leaf fluxref flux dtcor other (appendarg Fnanmax l (Slice Fnanmax m)) = eval A leaf fluxref flux dtcor other (Slice Fnanmax (l ++ [Slice Fnanmax m])).
Proof. exact @merge_max. Qed.
Print Assumptions C109_max.
Example C109_max_ex : eval num Ok (fun _ => Ok NaN) (fun _ => Ok NaN) (fun _ _ => NaN) (fun _ _ => Ok NaN) (appendarg Fnanmax [Leaf (Fin 0)] (Slice Fnanmax [Leaf NaN; Leaf (Fin 1)])) = Ok (Fin 1).
Proof. vm_compute. reflexivity. Qed.
(* sums without the NaN, of finite values and NaN *)
Theorem C109_nansum : forall A leaf fluxref flux dtcor other (l m : list (arg A)) ys, mapM (eval A leaf fluxref flux dtcor other) m = Ok ys -> Forall finite_or_nan ys ->
  eval A leaf fluxref flux dtcor other (appendarg Fnansum l (Slice Fnansum m)) = eval A leaf fluxref flux dtcor other (Slice Fnansum (l ++ [Slice Fnansum m])).
Proof. exact @merge_nansum. Qed.
Print Assumptions C109_nansum.
Example C109_nansum_ex : mapM (eval num Ok (fun _ => Ok NaN) (fun _ => Ok NaN) (fun _ _ => NaN) (fun _ _ => Ok NaN)) [Leaf NaN; Leaf (Fin 1)] = Ok [NaN; Fin 1] /\ Forall finite_or_nan [NaN; Fin 1].
Proof. split; [reflexivity|repeat constructor]. Qed.
(* the value of a function of expressions that are added one by one *)
Theorem C109_value : forall A leaf fluxref flux dtcor other f (l : list (arg A)) xs, Forall2 (fun a x => eval A leaf fluxref flux dtcor other a = Ok x) l xs ->
  f = Fsum \/ Forall (fun a => merged f a = [a]) l ->
  fold_left (fun e a => match e with Slice g m => appendarg g m a | Leaf _ => e end) l (Slice f []) = Slice f (flat_map (merged f) l) /\
  eval A leaf fluxref flux dtcor other (Slice f (flat_map (merged f) l)) = apply fluxref flux dtcor other f xs.
Proof. exact @appended_value. Qed.
Print Assumptions C109_value.
Example C109_value_ex : flat_map (merged Fsum) [Leaf 1; Slice Fsum [Leaf 2; Leaf 3]; Slice Fnanmax [Leaf 4]] = [Leaf 1; Leaf 2; Leaf 3; Slice Fnanmax [Leaf 4]].
Proof. reflexivity. Qed.
(* the mean of means is not their mean: 1 and the mean of 2 and 3 *)
Theorem C109_mean_refuted : let value := eval num Ok (fun _ => Ok NaN) (fun _ => Ok NaN) (fun _ _ => NaN) (fun _ _ => Ok NaN) in
  let m := Slice Fnanmean [Leaf (Fin (Qc_of_Z 2)); Leaf (Fin (Qc_of_Z 3))] in
  value (appendarg Fnanmean [Leaf (Fin 1)] m) = Ok (Fin (Qc_of_Z 2)) /\ value (Slice Fnanmean [Leaf (Fin 1); m]) = Ok (Fin (Qc_of_Z 7 / Qc_of_Z 4)) /\ Qc_of_Z 2 <> (Qc_of_Z 7 / Qc_of_Z 4)%Qc.
Proof. exact mean_of_means. Qed.
Print Assumptions C109_mean_refuted.
(* sums without NaN: the infinities of an inner sum make a NaN that the outer sum skips *)
Theorem C109_infinite_refuted : let value := eval num Ok (fun _ => Ok NaN) (fun _ => Ok NaN) (fun _ _ => NaN) (fun _ _ => Ok NaN) in
  let m := Slice Fnansum [Leaf PInf; Leaf NInf] in
  value (appendarg Fnansum [Leaf (Fin 1)] m) = Ok NaN /\ value (Slice Fnansum [Leaf (Fin 1); m]) = Ok (Fin 1).
Proof. exact sum_of_infinities. Qed.
Print Assumptions C109_infinite_refuted.
