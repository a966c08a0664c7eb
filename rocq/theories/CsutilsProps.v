(* Properties of tables of cross sections *)
From Verif Require Import CsutilsSpec CsutilsProofs.
Local Open Scope list_scope.
Local Open Scope nat_scope.

(* an array has the shape of the elements followed by the shape of the energies and holds the value of each pair, zero when there is none *)
Theorem C127_array Z E R (zero : R) (cs : Z -> E -> option R) np z e : agrees zero cs np -> wf z -> wf e -> isarray z = true \/ isarray e = true -> exists d,
  eval zero cs np z e = Array (shape_of z ++ shape_of e) d /\ wf (eval zero cs np z e) /\
  forall i j a b, element z i = Some a -> element e j = Some b -> nth_error d (i * size e + j) = Some (match cs a b with Some r => r | None => zero end).
Proof. exact (eval_array zero cs np z e). Qed.
Print Assumptions C127_array.
(* numbers give a number *)
Theorem C127_number Z E R (zero : R) (cs : Z -> E -> option R) np z e : eval zero cs np (Number z) (Number e) = Number (match cs z e with Some r => r | None => zero end).
Proof. exact (eval_number zero cs np z e). Qed.
Print Assumptions C127_number.
(* the shapes for numbers and arrays *)
Theorem C127_shapes Z E R (zero : R) (cs : Z -> E -> option R) np z e s t dz de :
  (exists d, eval zero cs np (Array s dz) (Number e) = Array s d) /\ (exists d, eval zero cs np (Number z) (Array t de) = Array t d) /\
  (exists d, eval zero cs np (Array s dz) (Array t de) = Array (s ++ t) d).
Proof. exact (eval_shapes zero cs np z e s t dz de). Qed.
Print Assumptions C127_shapes.
Example C127_case : let cs := fun z e => if e <? 3 then None else Some (100 * z + e) in
  eval 0 cs None (Array [2] [1; 2]) (Array [2; 2] [1; 3; 4; 5]) = Array [2; 2; 2] [0; 103; 104; 105; 0; 203; 204; 205] /\
  eval 0 cs (Some (fun _ _ => None)) (Number 1) (Array [3] [2; 3; 4]) = Array [3] [0; 103; 104] /\ eval 0 cs None (Array [] [1]) (Number 3) = Array [] [103] /\
  eval 0 cs None (Number 1) (Number 2) = Number 0 /\ agrees 0 cs (Some (fun _ _ => None)).
Proof. repeat split. intros f zs es r H. assert (f = fun _ _ => None) as -> by congruence. discriminate. Qed.
