(* C107: discrete spectra of sources (sources/emspectrum.py). *)
From Verif Require Import EmspectrumModel EmspectrumSpec EmspectrumProofs.
Local Open Scope Qc_scope.

(* The lines of a spectrum are those given, sorted and without repetition, with the sums of their intensities. *)
Theorem C107_lines : forall l t, built l t -> exists x, lines t = Some x /\ strictly_increasing x /\ forall v, In v x <-> In v (map fst l).
Proof. exact lines_spec. Qed.
Print Assumptions C107_lines.
Theorem C107_intensities : forall l t, built l t -> exists x y, lines t = Some x /\ intensities t = Ok y /\ length x = length y /\
  forall v w, In (v, w) (combine x y) -> w = sum (values_of Qc_eqb v l).
Proof. exact intensities_spec. Qed.
Print Assumptions C107_intensities.
Theorem C107_number_of_lines : forall l t, built l t -> exists x, lines t = Some x /\ nlines t = length x.
Proof. exact nlines_spec. Qed.
Print Assumptions C107_number_of_lines.
Theorem C107_total : forall l t, built l t -> total_intensity t = Ok (intensity l).
Proof. exact total_spec. Qed.
Print Assumptions C107_total.
Theorem C107_created : forall x y, x <> [] -> y <> [] -> length x = length y -> exists t, discrete (Some x) (Some y) = Ok t.
Proof. exact discrete_total. Qed.
Print Assumptions C107_created.

(* The ratios are proportional to the intensities and their sum is one. *)
Theorem C107_ratios : forall l t, built l t -> intensity l <> 0 ->
  exists y r, intensities t = Ok y /\ ratios t = Ok (map Some r) /\ map (fun q => q * intensity l) r = y /\ sum r = 1.
Proof. exact ratios_spec. Qed.
Print Assumptions C107_ratios.

(* A sample is the mean of the table at the given lines, weighted with the given intensities, whatever their order and repetition. *)
Theorem C107_sample : forall conv l t L f, built l t -> intensity l <> 0 ->
  (forall v, In v (map fst l) -> lut_call L (conv v) = Ok (Some (f v))) ->
  exists r, sample conv t L = Ok (Some r) /\ r * intensity l = weighted f l.
Proof. exact sample_spec. Qed.
Print Assumptions C107_sample.
Theorem C107_sample_between : forall conv l t L f a b, built l t -> intensity l <> 0 -> (forall v w, In (v, w) l -> 0 <= w) ->
  (forall v, In v (map fst l) -> lut_call L (conv v) = Ok (Some (f v)) /\ a <= f v /\ f v <= b) ->
  exists r, sample conv t L = Ok (Some r) /\ a <= r /\ r <= b.
Proof. exact sample_between. Qed.
Print Assumptions C107_sample_between.
Theorem C107_sample_constant : forall conv l t L c, built l t -> intensity l <> 0 ->
  (forall v, In v (map fst l) -> lut_call L (conv v) = Ok (Some c)) -> sample conv t L = Ok (Some c).
Proof. exact sample_constant. Qed.
Print Assumptions C107_sample_constant.
Theorem C107_sample_empty_table : forall conv l t c, built l t -> intensity l <> 0 -> sample conv t (lut_clear (Some c)) = Ok (Some c).
Proof. exact sample_no_table. Qed.
Print Assumptions C107_sample_empty_table.
Theorem C107_sample_dark : forall conv d L, sample conv (lut_clear d) L = Ok (ldefault L).
Proof. exact sample_dark. Qed.
Print Assumptions C107_sample_dark.

(* Without intensities the ratios and all samples are not finite. *)
Theorem C107_no_intensities_refuted : forall x t, discrete (Some x) None = Ok t ->
  built (combine x (repeat 0 (length x))) t /\ intensity (combine x (repeat 0 (length x))) = 0.
Proof. exact no_intensities. Qed.
Print Assumptions C107_no_intensities_refuted.
Theorem C107_ratios_zero_refuted : forall l t, built l t -> intensity l = 0 -> exists y, intensities t = Ok y /\ ratios t = Ok (map (fun _ => None) y).
Proof. exact ratios_zero. Qed.
Print Assumptions C107_ratios_zero_refuted.
Theorem C107_sample_zero_refuted : forall conv l t L f, built l t -> intensity l = 0 ->
  (forall v, In v (map fst l) -> lut_call L (conv v) = Ok (f v)) -> sample conv t L = Ok None.
Proof. exact sample_zero. Qed.
Print Assumptions C107_sample_zero_refuted.
Theorem C107_no_lines_given : forall y, discrete (Some []) y = Err StopIteration.
Proof. exact discrete_empty. Qed.
Print Assumptions C107_no_lines_given.

(* A dark spectrum has no lines, but it counts one; it has no intensities; it gets lines with the method instead of the operator. *)
Theorem C107_dark : discrete None None = Ok dark /\ intensities dark = Err AttributeError /\ total_intensity dark = Err AttributeError /\
  ratios dark = Err AttributeError /\ lines dark = None.
Proof. exact discrete_dark. Qed.
Print Assumptions C107_dark.
Theorem C107_dark_lines_refuted : nlines dark = 1%nat.
Proof. exact dark_lines. Qed.
Print Assumptions C107_dark_lines_refuted.
Theorem C107_dark_add_refuted : forall x y, x <> [] -> y <> [] -> length x = length y ->
  exists t, discrete_plus dark x y = Ok (Some t) /\ built (combine x y) t /\ lines t <> None.
Proof. exact dark_gets_lines. Qed.
Print Assumptions C107_dark_add_refuted.

(* the name to which something is added refers to nothing afterwards *)
Theorem C107_dark_operator_refuted : forall x y, dark_plus dark x y = None.
Proof. exact dark_operator. Qed.
Print Assumptions C107_dark_operator_refuted.

(* ---- examples ---- *)
Definition q (z : Z) := Qc_of_Z z.
Definition ex_x := [q 7; q 5; q 7].
Definition ex_y := [q 1; q 2; q 3].
Example ex_built : exists t, discrete (Some ex_x) (Some ex_y) = Ok t /\ built (combine ex_x ex_y) t /\ intensity (combine ex_x ex_y) = q 6.
Proof.
  destruct (discrete_total ex_x ex_y) as [t T]; [discriminate | discriminate | reflexivity|]. exists t. split; [exact T|].
  split; [constructor; [reflexivity | exact T]|]. apply Qc_is_canon. vm_compute. reflexivity.
Qed.
(* linear table from (4, 0) to (8, 40): 10, 30 with intensities 2 and 4 *)
Example ex_sample :
  match discrete (Some ex_x) (Some ex_y), new_data true [q 4; q 8] [q 0; q 40] (lut_clear None) with
  | Ok t, (Ok _, L) => match sample (fun v => v) t L with Ok (Some r) => Qc_eqb (r * q 6) (q 140) | _ => false end
  | _, _ => false
  end = true.
Proof. vm_compute. reflexivity. Qed.
