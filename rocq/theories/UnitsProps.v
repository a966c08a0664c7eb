(* C106: quantities of numbers, quantities and arrays keep their meaning. *)
From Verif Require Import UnitsModel UnitsSpec UnitsProofs.
Local Open Scope Qc_scope.

(* ---- magnitudes ---- *)
Theorem C106_magnitude : forall u s y, sized u ->
  (magnitude (Some u) (One s) = Ok (M1 y) <-> fits u s /\ physical s = (u_dim u, y * u_size u)).
Proof. exact magnitude_scalar. Qed.
Print Assumptions C106_magnitude.
Theorem C106_magnitudes : forall u l m, sized u ->
  (magnitude (Some u) (Many l) = Ok (MArray m) <-> Forall (fits u) l /\ map physical l = in_unit u m).
Proof. exact magnitude_array. Qed.
Print Assumptions C106_magnitudes.
Theorem C106_magnitudes_of_a_quantity : forall u v l m, sized u ->
  (magnitude (Some u) (QArray v l) = Ok (MArray m) <-> u_dim v = u_dim u /\ in_unit v l = in_unit u m).
Proof. exact magnitude_qarray. Qed.
Print Assumptions C106_magnitudes_of_a_quantity.
Theorem C106_magnitude_refused : forall u x,
  match x with One s => ~ fits u s | Many l => ~ Forall (fits u) l | QArray v _ => u_dim v <> u_dim u end ->
  magnitude (Some u) x = Err TypeError.
Proof. exact magnitude_error. Qed.
Print Assumptions C106_magnitude_refused.
Theorem C106_number_taken_in_unit : forall u x, sized u -> umagnitude u (One (Num x)) = Ok (M1 x).
Proof. exact umagnitude_number. Qed.
Print Assumptions C106_number_taken_in_unit.
Theorem C106_numbers_taken_in_unit : forall u x l, sized u -> umagnitude u (Many (map Num (x :: l))) = Ok (MArray (x :: l)).
Proof. exact umagnitude_numbers. Qed.
Print Assumptions C106_numbers_taken_in_unit.
Theorem C106_quantity_in_unit : forall u v x, sized u -> u_dim v = u_dim u ->
  exists y, umagnitude u (One (Quant v x)) = Ok (M1 y) /\ y * u_size u = x * u_size v.
Proof. exact umagnitude_quantity. Qed.
Print Assumptions C106_quantity_in_unit.
Theorem C106_quantities_in_unit : forall u v x l, sized u -> sized v -> u_dim v = u_dim u -> Forall (fits v) l ->
  exists m, umagnitude u (Many (Quant v x :: l)) = Ok (MArray m) /\ in_unit u m = meaning (Many (Quant v x :: l)).
Proof. exact umagnitude_quantities. Qed.
Print Assumptions C106_quantities_in_unit.
Theorem C106_quantity_in_unit_refused : forall u v x, u_dim v <> u_dim u -> umagnitude u (One (Quant v x)) = Err TypeError.
Proof. exact umagnitude_error. Qed.
Print Assumptions C106_quantity_in_unit_refused.

(* ---- arrays: the unit of the first element ---- *)
Theorem C106_array : forall f s l, sized (unit_of s) -> Forall (fits (unit_of s)) (s :: l) ->
  exists m, asqarray f (Many (s :: l)) = Ok (match s, f with Num _, false => Many (map Num m) | _, _ => QArray (unit_of s) m end) /\
    in_unit (unit_of s) m = meaning (Many (s :: l)).
Proof. exact asqarray_ok. Qed.
Print Assumptions C106_array.
Theorem C106_array_refused : forall f s l, ~ Forall (fits (unit_of s)) (s :: l) -> asqarray f (Many (s :: l)) = Err TypeError.
Proof. exact asqarray_err. Qed.
Print Assumptions C106_array_refused.
Theorem C106_array_of_one : forall f s, sized (unit_of s) ->
  asqarray f (One s) = Ok (match s with Num x => if f then QArray dimensionless [x] else Many [Num x] | Quant u x => QArray u [x] end).
Proof. exact asqarray_one. Qed.
Print Assumptions C106_array_of_one.
Theorem C106_scalar_restored : forall s y, sized (unit_of s) -> asqarray true (One s) = Ok y ->
  restore (One s) y = Ok (One (match s with Num x => Quant dimensionless x | _ => s end)).
Proof. exact asqarray_restore. Qed.
Print Assumptions C106_scalar_restored.
Theorem C106_array_of_array : forall f v l, sized v -> asqarray f (QArray v l) = match l with [] => Err IndexError | _ => Ok (QArray v l) end.
Proof. exact asqarray_qarray. Qed.
Print Assumptions C106_array_of_array.
(* an empty list cannot be made an array *)
Theorem C106_empty_array_refuted : forall f, asqarray f (Many []) = Err StopIteration.
Proof. exact asqarray_nothing. Qed.
Print Assumptions C106_empty_array_refuted.

(* ---- quantities: units are given to numbers only ---- *)
Theorem C106_quantity_scalar : forall u s, quantity (Some u) true (One s) = Ok (One (match s with Num x => Quant u x | _ => s end)).
Proof. exact quantity_scalar. Qed.
Print Assumptions C106_quantity_scalar.
Theorem C106_quantity_default : forall f s,
  quantity None f (One s) = Ok (One (match s, f with Num x, true => Quant dimensionless x | _, _ => s end)).
Proof. exact quantity_default. Qed.
Print Assumptions C106_quantity_default.
Theorem C106_quantity_array : forall u f v l, sized v -> quantity u f (QArray v l) = match l with [] => Err IndexError | _ => Ok (QArray v l) end.
Proof. exact quantity_qarray. Qed.
Print Assumptions C106_quantity_array.
Theorem C106_quantity_numbers : forall u x l, quantity (Some u) true (Many (map Num (x :: l))) = Ok (QArray u (x :: l)).
Proof. exact quantity_numbers. Qed.
Print Assumptions C106_quantity_numbers.
Theorem C106_quantity_quantities : forall u f v x l, sized v -> Forall (fits v) l ->
  exists m, quantity u f (Many (Quant v x :: l)) = Ok (QArray v m) /\ meaning (QArray v m) = meaning (Many (Quant v x :: l)).
Proof. exact quantity_quantities. Qed.
Print Assumptions C106_quantity_quantities.
Theorem C106_quantity_mixed : forall u f v x l, ~ Forall (fits v) l -> quantity u f (Many (Quant v x :: l)) = Err TypeError.
Proof. exact quantity_mixed. Qed.
Print Assumptions C106_quantity_mixed.
Theorem C106_quantity_number_first : forall u x l, ~ Forall (fits dimensionless) l -> quantity (Some u) true (Many (Num x :: l)) = Err TypeError.
Proof. exact quantity_number_first. Qed.
Print Assumptions C106_quantity_number_first.
(* "Quantity with given units when not present": dimensionless quantities behind a number get the given units nevertheless *)
Theorem C106_units_when_not_present_refuted : forall u x l, Forall (fits dimensionless) l ->
  exists m, quantity (Some u) true (Many (Num x :: l)) = Ok (QArray u m) /\ meaning (Many (Num x :: l)) = in_unit dimensionless m.
Proof. exact quantity_relabelled. Qed.
Print Assumptions C106_units_when_not_present_refuted.

(* ---- units of another value ---- *)
Theorem C106_like_units : forall x y r, quantity_like true x y = Ok r ->
  exists u, has_unit u r /\ units y <> [] /\ (Forall (eq (Some u)) (units y) \/ (u = dimensionless /\ Forall (eq None) (units y))).
Proof. exact like_units. Qed.
Print Assumptions C106_like_units.
Theorem C106_like_number : forall f x y u, sized u -> units y <> [] -> Forall (eq (Some u)) (units y) ->
  quantity_like f (One (Num x)) y = Ok (One (Quant u x)).
Proof. exact like_number. Qed.
Print Assumptions C106_like_number.
Theorem C106_like_quantity : forall f v x y u, sized u -> units y <> [] -> Forall (eq (Some u)) (units y) -> u_dim v = u_dim u ->
  exists z, quantity_like f (One (Quant v x)) y = Ok (One (Quant u z)) /\ z * u_size u = x * u_size v.
Proof. exact like_quantity. Qed.
Print Assumptions C106_like_quantity.
Theorem C106_like_other_dimension : forall f v x y u, units y <> [] -> Forall (eq (Some u)) (units y) -> u_dim v <> u_dim u ->
  quantity_like f (One (Quant v x)) y = Err TypeError.
Proof. exact like_error. Qed.
Print Assumptions C106_like_other_dimension.
Theorem C106_like_different_units : forall f x y a b, In a (units y) -> In b (units y) -> a <> b -> quantity_like f x y = Err ValueError.
Proof. exact like_different. Qed.
Print Assumptions C106_like_different_units.

(* ---- the first valid unit ---- *)
Theorem C106_first_unit : forall v x l1 u l2, sized u -> Forall (fun w => u_dim w <> u_dim v) l1 -> u_dim u = u_dim v ->
  exists y, unitsto (One (Quant v x)) (l1 ++ u :: l2) = Ok (One (Quant u y)) /\ y * u_size u = x * u_size v.
Proof. exact unitsto_first. Qed.
Print Assumptions C106_first_unit.
Theorem C106_first_unit_array : forall v x l1 u l2 l, sized u -> sized v -> Forall (fits v) l -> Forall (fun w => u_dim w <> u_dim v) l1 ->
  u_dim u = u_dim v ->
  exists m, unitsto (Many (Quant v x :: l)) (l1 ++ u :: l2) = Ok (QArray u m) /\ meaning (QArray u m) = meaning (Many (Quant v x :: l)).
Proof. exact unitsto_array. Qed.
Print Assumptions C106_first_unit_array.
Theorem C106_no_unit : forall v x l, Forall (fun w => u_dim w <> u_dim v) l -> unitsto (One (Quant v x)) l = Err RuntimeError.
Proof. exact unitsto_none. Qed.
Print Assumptions C106_no_unit.

(* ---- operators ---- *)
Theorem C106_operator_numbers : forall x y, binary_arguments (One (Num x)) (One (Num y)) = Ok (One (Num x), One (Num y)).
Proof. exact binary_numbers. Qed.
Print Assumptions C106_operator_numbers.
Theorem C106_operator_quantities : forall v x w y, sized v -> u_dim w = u_dim v ->
  exists z, binary_arguments (One (Quant v x)) (One (Quant w y)) = Ok (One (Quant v x), One (Quant v z)) /\ z * u_size v = y * u_size w.
Proof. exact binary_quantities. Qed.
Print Assumptions C106_operator_quantities.
Theorem C106_operator_dimensions : forall v x w y, u_dim w <> u_dim v -> binary_arguments (One (Quant v x)) (One (Quant w y)) = Err TypeError.
Proof. exact binary_dimension. Qed.
Print Assumptions C106_operator_dimensions.
(* a number on the right gets the units of the left argument, a number on the left is refused *)
Theorem C106_operator_number_right : forall v x y, sized v ->
  binary_arguments (One (Quant v x)) (One (Num y)) = Ok (One (Quant v x), One (Quant v y)).
Proof. exact binary_number_right. Qed.
Print Assumptions C106_operator_number_right.
Theorem C106_operator_symmetry_refuted : forall v x y, u_dim v <> [] -> binary_arguments (One (Num x)) (One (Quant v y)) = Err TypeError.
Proof. exact binary_number_left. Qed.
Print Assumptions C106_operator_symmetry_refuted.

(* ---- examples ---- *)
Definition metre := Unit [1%Z] 1.
Definition km := Unit [1%Z] (Qc_of_Z 1000).
Definition second := Unit [0%Z; 1%Z] 1.
Example sized_units : sized metre /\ sized km /\ sized second /\ u_dim km = u_dim metre /\ u_dim second <> u_dim metre.
Proof. repeat split; discriminate. Qed.
Example lengths_fit : Forall (fits metre) [Quant km (Qc_of_Z 2); Quant metre 1] /\ ~ Forall (fits metre) [Quant km 1; Num 1] /\ ~ fits metre (Quant second 1).
Proof.
  split; [repeat constructor|]. split; [|discriminate]. intro H. inversion H as [|? ? ? H1]. inversion H1 as [|? ? F]. discriminate.
Qed.
Example lengths : exists a b, quantity None true (Many [Quant metre 1; Quant km (Qc_of_Z 2)]) = Ok (QArray metre [a; b]) /\ a = 1 /\ b = Qc_of_Z 2000.
Proof. eexists _, _. split; [vm_compute; reflexivity|]. split; apply Qc_is_canon; vm_compute; reflexivity. Qed.
Example relabelled : exists b, quantity (Some km) true (Many [Num 1; Quant dimensionless (Qc_of_Z 2)]) = Ok (QArray km [1; b]) /\ b = Qc_of_Z 2.
Proof. eexists. split; [vm_compute; reflexivity|]. apply Qc_is_canon; vm_compute; reflexivity. Qed.
Example other_order : exists a b, quantity (Some km) true (Many [Quant dimensionless (Qc_of_Z 2); Num 1]) = Ok (QArray dimensionless [a; b]).
Proof. eexists _, _. vm_compute. reflexivity. Qed.
Example like_array : Forall (eq (Some km)) (units (Many [Quant km 1; Quant km 0])) /\ units (Many [Quant km 1; Quant km 0]) <> [].
Proof. split; [repeat constructor | discriminate]. Qed.
