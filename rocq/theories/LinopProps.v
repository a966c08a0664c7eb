(* C19, C20, C57: products, inverses, powers and equality of operators *)
From Verif Require Import LinopModel LinopSpec LinopProofs LinopMulProofs.
From Coq Require Import String.
Local Open Scope string_scope.
Local Open Scope list_scope.
Local Open Scope Qc_scope.

Definition two : num := Fin (1 + 1).
Definition three : num := Fin (1 + 1 + 1).
Definition one : num := Fin 1.
Definition zero : num := Fin 0.
Definition double_plus_one : oper := [Linear two one].
Definition clip13_double : oper := [Clip (Some one) (Some three); Lambda "opp" "opp" n_opp n_opp; Linear two zero].

(* the product applies the right factor first.  Missing: slopes and offsets that are
   infinite or NaN, and a zero slope on the right of a clip (refuted below) *)
Theorem C19_product_is_composition_partial l r x :
  wf r -> finite_linear l -> finite_linear r -> no_clip l \/ nonzero_linear r ->
  eval (mul l r) x = eval l (eval r x).
Proof. exact (mul_eval l r x). Qed.
Print Assumptions C19_product_is_composition_partial.

Example C19_product_example :
  wf double_plus_one /\ finite_linear clip13_double /\ finite_linear double_plus_one /\ nonzero_linear double_plus_one /\
  Forall (fun x => eval (mul clip13_double double_plus_one) x = one) [one; PInf; zero] /\
  mul [Clip None (Some three)] double_plus_one = [Linear two one; Clip None (Some one)].
Proof.
  split; [wellformed|].
  split; [each|]. split; [each|]. split; [each|]. split; [each|].
  unfold mul, mul1, commute, double_plus_one, three, two, one. cbn -[Qc_ltb].
  assert (Qc_ltb (1 + 1) 0 = false) as -> by reflexivity.
  repeat f_equal. field. discriminate.
Qed.

Theorem C19_associative_partial a b c x :
  wf b -> wf c -> finite_linear a -> finite_linear b -> finite_linear c ->
  (no_clip a /\ no_clip b) \/ (nonzero_linear b /\ nonzero_linear c) ->
  eval (mul (mul a b) c) x = eval (mul a (mul b c)) x.
Proof. exact (mul_assoc a b c x). Qed.
Print Assumptions C19_associative_partial.

Example C19_associative_example :
  let a := [Clip (Some one) None] in let b := [Linear two one; NaNClip None (Some three)] in let c := double_plus_one in
  wf b /\ wf c /\ finite_linear a /\ finite_linear b /\ finite_linear c /\ nonzero_linear b /\ nonzero_linear c /\
  eval (mul (mul a b) c) two = NaN /\ eval (mul a (mul b c)) one = Fin (1 + 1 + 1 + 1 + 1 + 1 + 1).
Proof.
  cbn zeta. split; [wellformed|]. split; [wellformed|].
  do 5 (split; [each|]). split; [vm_compute; reflexivity|].
  vm_compute; repeat f_equal; apply Qc_is_canon; reflexivity.
Qed.

(* multiplying with the identity changes nothing *)
Theorem C19_identity_neutral o : wf o -> mul [Identity] o = o /\ mul o [Identity] = o.
Proof. exact (fun H => conj (mul_id_l o H) (mul_id_r o H)). Qed.
Print Assumptions C19_identity_neutral.

Example C19_identity_example : wf clip13_double /\ wf [Identity].
Proof. split; [right; split; [discriminate|cbn; intuition discriminate]|now left]. Qed.

(* products of invertible operators have the product of the inverses, in opposite
   order, as two-sided inverse *)
Theorem C19_inverse o x : Forall invertible o -> eval (inverse o) (eval o x) = x /\ eval o (eval (inverse o) x) = x.
Proof. exact (inverse_both o x). Qed.
Print Assumptions C19_inverse.

Example C19_inverse_example :
  Forall invertible [Linear two one; Lambda "opp" "opp" n_opp n_opp] /\
  eval (inverse [Linear two one; Lambda "opp" "opp" n_opp n_opp]) three = Fin (- (1)).
Proof.
  split; [|vm_compute; reflexivity]. constructor; [|constructor; [|constructor]].
  - exists (1 + 1), 1. repeat split. discriminate.
  - split; intros [| | |]; cbn; try reflexivity; f_equal; ring.
Qed.

(* positive powers of a linear operator are repeated application *)
Theorem C19_power m b o p : finite_kind (Linear m b) -> (0 < p)%Z ->
  exists r, pow (Linear m b :: o) p = Ok r /\ forall x, eval r x = iter (Z.to_nat p) (eval [Linear m b]) x.
Proof. exact (pow_eval m b o p). Qed.
Print Assumptions C19_power.

Example C19_power_example : finite_kind (Linear two one) /\
  match pow double_plus_one 3 with Ok r => eval r one = Fin (Qc_of_Z 15) | Err _ => False end.
Proof. split; [eexists _, _; split; reflexivity|vm_compute; reflexivity]. Qed.

(* negative powers are not supported *)
Theorem C19_negative_power_raises m b o p : (p < 0)%Z -> pow (Linear m b :: o) p = Err NotImplementedError.
Proof. exact (pow_negative m b o p). Qed.
Print Assumptions C19_negative_power_raises.

Example C19_negative_power_example : pow double_plus_one (-2) = Err NotImplementedError.
Proof. reflexivity. Qed.

(* power zero is not the identity but the constant 1 *)
Theorem C19_power_zero_refuted :
  exists m b x, finite_kind (Linear m b) /\ nonzero_kind (Linear m b) /\
    match pow [Linear m b] 0 with Ok r => eval r x <> x | Err _ => False end.
Proof. exact power_zero. Qed.
Print Assumptions C19_power_zero_refuted.

(* a power of a product ignores every factor but the first *)
Theorem C19_power_of_product_refuted :
  exists o x, wf o /\ finite_linear o /\
    match pow o 2 with Ok r => eval r x <> eval o (eval o x) | Err _ => False end.
Proof. exact power_product. Qed.
Print Assumptions C19_power_of_product_refuted.

(* merging the limits of two clips does not change the composition, whatever limits
   are missing, NaN or infinite *)
Theorem C20_merge_clips a b c d c1 c2 x : merge_limits a b c d = Some (c1, c2) ->
  eval [Clip c1 c2] x = eval [Clip a b; Clip c d] x /\
  eval [NaNClip c1 c2] x = eval [NaNClip a b; NaNClip c d] x.
Proof. exact (merge_both a b c d c1 c2 x). Qed.
Print Assumptions C20_merge_clips.

Example C20_merge_example :
  merge_limits (Some one) (Some three) (Some two) None = Some (Some two, Some three) /\
  merge_limits (Some one) None (Some two) (Some three) = None /\
  merge_limits (Some one) (Some two) (Some three) None = None /\
  merge_limits (Some NInf) (Some PInf) None (Some NaN) = Some (Some NInf, Some PInf).
Proof. repeat split; vm_compute; reflexivity. Qed.

(* exchanging a clip and a linear operator with a slope other than zero *)
Theorem C20_exchange_partial a b m q c1 c2 x :
  finite_kind (Linear m q) -> nonzero_kind (Linear m q) -> commute m q a b = (c1, c2) ->
  eval [Linear m q; Clip c1 c2] x = eval [Clip a b; Linear m q] x /\
  eval [Linear m q; NaNClip c1 c2] x = eval [NaNClip a b; Linear m q] x.
Proof. exact (exchange_both a b m q c1 c2 x). Qed.
Print Assumptions C20_exchange_partial.

Example C20_exchange_example :
  finite_kind (Linear (Fin (- (1))) one) /\ nonzero_kind (Linear (Fin (- (1))) one) /\
  fst (commute (Fin (- (1))) one (Some zero) (Some three)) = Some (Fin (- (1 + 1))) /\
  snd (commute (Fin (- (1))) one (Some zero) (Some three)) = Some one /\
  commute two one None None = (None, None).
Proof.
  split; [eexists _, _; split; reflexivity|]. split; [discriminate|].
  repeat split; vm_compute; repeat f_equal; apply Qc_is_canon; reflexivity.
Qed.

(* every product of clips and linear operators, simplified or not, is the composition
   of its factors: see C19_product_is_composition_partial.  With slope zero it is not: *)
Theorem C20_zero_slope_refuted :
  exists a b m q x, finite_kind (Linear m q) /\
    eval (mul [Clip a b] [Linear m q]) x <> eval [Clip a b; Linear m q] x.
Proof. exact zero_slope. Qed.
Print Assumptions C20_zero_slope_refuted.

(* the inverse of a product containing clips recovers the input when no clip cut it *)
Theorem C20_inverse_unclipped o x : Forall reversible o -> unclipped o x -> eval (inverse o) (eval o x) = x.
Proof. exact (inverse_left o x). Qed.
Print Assumptions C20_inverse_unclipped.

Example C20_inverse_example :
  let o := [Clip (Some one) (Some three); Linear two zero; NaNClip None (Some two)] in
  Forall reversible o /\ unclipped o one /\ eval (inverse o) (eval o two) = Fin (Q2Qc (3 # 2)) /\ ~ unclipped o two.
Proof.
  cbn zeta. split; [|split; [|split]].
  - each. exists (1 + 1), 0. repeat split. discriminate.
  - cbn. repeat split; try (intros; discriminate); intros ? [= <-] _; vm_compute; reflexivity.
  - vm_compute; repeat f_equal; apply Qc_is_canon; reflexivity.
  - intros [_ [_ H]]. assert (H1 := H _ eq_refl ltac:(discriminate)). vm_compute in H1. discriminate.
Qed.

(* operators without right factors that compare equal are the same operator, unless
   they are lambdas *)
Theorem C57_equal_single_partial k k' : not_lambda k -> op_eqb [k] [k'] = true -> k = k'.
Proof. exact (op_eqb_single k k'). Qed.
Print Assumptions C57_equal_single_partial.

Example C57_equal_example : not_lambda (Clip None (Some three)) /\ op_eqb [Clip None (Some three)] [Clip None (Some three)] = true.
Proof. split; [exact I|reflexivity]. Qed.

(* equality ignores the right factors *)
Theorem C57_equal_product_refuted :
  exists l r x, wf l /\ wf r /\ op_eqb l r = true /\ eval l x <> eval r x.
Proof. exact eq_product. Qed.
Print Assumptions C57_equal_product_refuted.

(* and a clip with a NaN limit is not equal to itself *)
Theorem C57_equal_reflexive_refuted : exists o, wf o /\ op_eqb o o = false.
Proof. exact eq_irreflexive. Qed.
Print Assumptions C57_equal_reflexive_refuted.
