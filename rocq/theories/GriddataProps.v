(* Properties of the signals of results by group *)
From Coq Require Import String.
Close Scope string_scope.
From Verif Require Import GriddataSpec GriddataProofs.
Local Open Scope list_scope.
Local Open Scope nat_scope.
Local Notation s := list_ascii_of_string.

(* plots with different groups and the same axes: all signals by group, the axes and the first stack dimension *)
Theorem C124_groups A S (eqb : A -> A -> bool) sd (l : list (plot A S)) p rest gs : own l = p :: rest -> Forall2 named (own l) gs -> NoDup (map g_name gs) -> p_axes p <> [] ->
  (forall q, In q rest -> same_axes eqb (p_axes p) (p_axes q)) ->
  regulargriddata eqb (SProcess true sd l) = Ok (combine gs (map p_signals (own l)), p_axes p, first_some (sd :: map p_stackdim (own l))).
Proof. exact (grid_complete eqb sd l p rest gs). Qed.
Print Assumptions C124_groups.
Example C124_groups_case :
  regulargriddata Nat.eqb (SProcess true None [mkPlot false (s"xia00") None [3; 4] [s"Fe"; s"Ca"]; mkPlot true (s"xia00") (Some 7) [9] [s"K"]; mkPlot false (s"detectorS1") (Some 2) [3; 4] [s"Fe"]; mkPlot false (s"counters") (Some 0) [3; 4] [s"iodet"]]) =
  Ok ([(mkGrp (s"detector00") 0 0, [s"Fe"; s"Ca"]); (mkGrp (s"detectorS1") 1 1, [s"Fe"]); (mkGrp (s"counters") (-1) (-1), [s"iodet"])], [3; 4], Some 2).
Proof. vm_compute. reflexivity. Qed.
(* whatever is accepted has different groups, no lost signals and the axes of the result *)
Theorem C124_sound A S (eqb : A -> A -> bool) sd (l : list (plot A S)) groups axes sd' : regulargriddata eqb (SProcess true sd l) = Ok (groups, axes, sd') ->
  exists gs, Forall2 named (own l) gs /\ groups = combine gs (map p_signals (own l)) /\ NoDup (map g_name gs) /\
  sd' = first_some (sd :: map p_stackdim (own l)) /\
  (forall p, In p (own l) -> p_axes p = [] \/ p_axes p = axes \/ same_axes eqb axes (p_axes p)).
Proof. exact (grid_sound eqb sd l groups axes sd'). Qed.
Print Assumptions C124_sound.

(* two plots of the same group are an error *)
Theorem C124_double A S (eqb : A -> A -> bool) sd (l : list (plot A S)) p q g h a b c : own l = a ++ p :: b ++ q :: c -> named p g -> named q h -> g_name g = g_name h -> (forall p, In p (own l) -> exists g, named p g) ->
  regulargriddata eqb (SProcess true sd l) = Err RuntimeError.
Proof. exact (grid_double eqb sd l p q g h a b c). Qed.
Print Assumptions C124_double.
(* different axes are an error *)
Theorem C124_axes A S (eqb : A -> A -> bool) sd (l : list (plot A S)) p rest q : own l = p :: rest -> p_axes p <> [] -> In q rest -> ~ same_axes eqb (p_axes p) (p_axes q) -> (forall p, In p (own l) -> exists g, named p g) ->
  regulargriddata eqb (SProcess true sd l) = Err RuntimeError.
Proof. exact (grid_axes eqb sd l p rest q). Qed.
Print Assumptions C124_axes.
Example C124_errors_case :
  regulargriddata Nat.eqb (SProcess true None [mkPlot false (s"xia01") None [3] [1]; mkPlot false (s"io") None [3] [2]; mkPlot false (s"detector1") None [3] [3]]) = Err RuntimeError /\
  regulargriddata Nat.eqb (SProcess true None [mkPlot false (s"xia01") None [3] [1]; mkPlot false (s"io") None [3; 4] [2]]) = Err RuntimeError.
Proof. split; vm_compute; reflexivity. Qed.
(* except when the first plot has no axes: the axes of the second one are taken for both *)
Theorem C124_no_axes_refuted A S (eqb : A -> A -> bool) sd (p q : plot A S) g h : p_link p = false -> p_link q = false -> p_axes p = [] -> named p g -> named q h -> g_name g <> g_name h ->
  regulargriddata eqb (SProcess true sd [p; q]) = Ok ([(g, p_signals p); (h, p_signals q)], p_axes q, first_some [sd; p_stackdim p; p_stackdim q]).
Proof. exact (grid_no_axes eqb sd p q g h). Qed.
Print Assumptions C124_no_axes_refuted.
Example C124_no_axes_case :
  regulargriddata Nat.eqb (SProcess true None [mkPlot false (s"io") None [] [1]; mkPlot false (s"xia01") None [3] [2]]) = Ok ([(mkGrp (s"io") (-1) (-1), [1]); (mkGrp (s"detector01") 1 0, [2])], [3], None) /\
  regulargriddata Nat.eqb (SProcess true None [mkPlot false (s"xia01") None [3] [2]; mkPlot false (s"io") None [] [1]]) = Err RuntimeError.
Proof. split; vm_compute; reflexivity. Qed.

(* results of other programs and other groups are errors; a plot is a result with one plot *)
Theorem C124_other A S (eqb : A -> A -> bool) sd (l : list (plot A S)) : regulargriddata eqb (SProcess false sd l) = Err ValueError /\ regulargriddata eqb (SOther : source A S) = Err ValueError.
Proof. exact (grid_other eqb sd l). Qed.
Print Assumptions C124_other.
Theorem C124_data A S (eqb : A -> A -> bool) (p : plot A S) : regulargriddata eqb (SData p) = regulargriddata eqb (SProcess true None [p]).
Proof. exact (grid_data eqb p). Qed.
Print Assumptions C124_data.
(* a plot with a name that is not a group, for example of sulphur, is an error *)
Theorem C124_name A S (eqb : A -> A -> bool) sd (p : plot A S) rest l : own l = p :: rest -> make (GStr (p_name p)) = Err ValueError -> regulargriddata eqb (SProcess true sd l) = Err ValueError.
Proof. exact (grid_bad_name eqb sd p rest l). Qed.
Print Assumptions C124_name.
Example C124_name_case : regulargriddata Nat.eqb (SProcess true None [mkPlot false (s"S-K") None [3] [1]]) = Err ValueError.
Proof. vm_compute. reflexivity. Qed.
