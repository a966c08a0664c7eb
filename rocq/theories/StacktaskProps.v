(* Properties of merging, stacking and alignment tasks *)
From Verif Require Import StacktaskModel StacktaskSpec StacktaskProofs.
From Coq Require Import Permutation Sorting.Sorted.
Local Open Scope list_scope.
Local Open Scope nat_scope.

(* the group of a name has all NXdata of the previous tasks with this name, in order; there is no group without sources *)
Theorem C117_sources D (outputs : list (list (string * D))) name :
  lookup String.eqb name (stack_sources outputs) = match named name (List.concat outputs) with [] => None | g => Some g end.
Proof. exact (sources outputs name). Qed.
Print Assumptions C117_sources.
Example C117_sources_case : lookup String.eqb "a"%string (stack_sources [[("a"%string, 1); ("b"%string, 2)]; [("a"%string, 3)]]) = Some [1; 3].
Proof. reflexivity. Qed.

(* entries of nested tasks in order; paths that are no entry are skipped *)
Theorem C117_entries E (l1 l2 : list (dep E)) (d : dep E) (e : E) :
  entries (DTask (l1 ++ d :: l2)) = entries (DTask l1) ++ entries d ++ entries (DTask l2) /\ entries (DPath true e) = [e] /\ entries (DPath false e) = [].
Proof. exact (entries_nested l1 l2 d e). Qed.
Print Assumptions C117_entries.
Example C117_entries_case : entries (DTask [DTask [DPath true 1; DPath false 2]; DPath true 3]) = [1; 3].
Proof. reflexivity. Qed.

(* positions increase; each source stays with its position, in every group *)
Theorem C117_order D (l : list Qc) (groups : list (string * list D)) : (forall g, In g groups -> List.length (snd g) = List.length l) ->
  exists l' gs, order (map Some l) groups = Ok (map Some l', gs) /\ Permutation l' l /\ StronglySorted (fun x y => (x <= y)%Qc) l' /\
    Forall2 (fun g g' => fst g' = fst g /\ List.length (snd g') = List.length (snd g) /\ Permutation (combine l' (snd g')) (combine l (snd g))) groups gs.
Proof. exact (ordered_values l groups). Qed.
Print Assumptions C117_order.
Example C117_order_case : order [Some (Qc_of_Z 2); Some (Qc_of_Z 1)] [("a"%string, [10; 20])] = Ok ([Some (Qc_of_Z 1); Some (Qc_of_Z 2)], [("a"%string, [20; 10])]).
Proof. vm_compute. reflexivity. Qed.

(* one missing position: nothing is ordered *)
Theorem C117_order_nan D (axis : list (option Qc)) (groups : list (string * list D)) : In None axis -> order axis groups = Ok (axis, groups).
Proof. exact (not_ordered axis groups). Qed.
Print Assumptions C117_order_nan.
Example C117_order_nan_case : order [Some (Qc_of_Z 2); None; Some (Qc_of_Z 1)] [("a"%string, [10; 20])] = Ok ([Some (Qc_of_Z 2); None; Some (Qc_of_Z 1)], [("a"%string, [10; 20])]).
Proof. apply C117_order_nan. right. now left. Qed.

(* a group that misses in one of the scans gives an error *)
Theorem C117_incomplete_refuted D (axis : list (option Qc)) (groups : list (string * list D)) g : ~ In None axis -> In g groups -> List.length (snd g) < List.length axis -> order axis groups = Err IndexError.
Proof. exact (too_few axis groups g). Qed.
Print Assumptions C117_incomplete_refuted.
Example C117_incomplete_case : order [Some (Qc_of_Z 2); Some (Qc_of_Z 1)] [("a"%string, [10; 20]); ("b"%string, [30])] = Err IndexError.
Proof. vm_compute. reflexivity. Qed.

(* sources beyond the number of entries are dropped without an error *)
Theorem C117_dropped_refuted D (l : list Qc) (groups : list (string * list D)) ax gs : order (map Some l) groups = Ok (ax, gs) -> Forall (fun g => List.length (snd g) = List.length l) gs.
Proof. exact (dropped l groups ax gs). Qed.
Print Assumptions C117_dropped_refuted.
Example C117_dropped_case : order [Some (Qc_of_Z 2); Some (Qc_of_Z 1)] [("a"%string, [10; 20; 30])] = Ok ([Some (Qc_of_Z 1); Some (Qc_of_Z 2)], [("a"%string, [20; 10])]).
Proof. vm_compute. reflexivity. Qed.

(* titles *)
Theorem C117_fscan2d int parts a b x y : nth_error parts 0 = Some "fscan2d"%string -> nth_error parts 4 = Some a -> nth_error parts 8 = Some b -> int a = Some x -> int b = Some y -> shape_parser int parts = Ok (Some (y, x)).
Proof. exact (shape_fscan2d int parts a b x y). Qed.
Print Assumptions C117_fscan2d.
Theorem C117_l2scan int parts a b x y : nth_error parts 0 = Some "l2scan"%string -> nth_error parts 4 = Some a -> nth_error parts 8 = Some b -> int a = Some x -> int b = Some y -> shape_parser int parts = Ok (Some (x, (y + 1)%Z)).
Proof. exact (shape_l2scan int parts a b x y). Qed.
Print Assumptions C117_l2scan.
Theorem C117_other_scan int parts c : nth_error parts 0 = Some c -> c <> "fscan2d"%string -> c <> "l2scan"%string ->
  (forall a b x y, nth_error parts 4 = Some a -> nth_error parts 8 = Some b -> int a = Some x -> int b = Some y -> shape_parser int parts = Ok (Some ((x + 1)%Z, (y + 1)%Z))) /\
  (nth_error parts 8 = None \/ (exists a, nth_error parts 4 = Some a /\ int a = None) \/ (exists b, nth_error parts 8 = Some b /\ int b = None) -> shape_parser int parts = Ok None).
Proof. exact (shape_other int parts c). Qed.
Print Assumptions C117_other_scan.
Theorem C117_title_errors int parts c : nth_error parts 0 = Some c -> c = "fscan2d"%string \/ c = "l2scan"%string ->
  (List.length parts <= 4 -> shape_parser int parts = Err IndexError) /\
  (forall a b, nth_error parts 4 = Some a -> nth_error parts 8 = Some b -> int a = None \/ int b = None -> shape_parser int parts = Err ValueError).
Proof. exact (shape_errors int parts c). Qed.
Print Assumptions C117_title_errors.
Example C117_title_case :
  shape_parser int_case ["fscan2d"; "y"; "0"; "1"; "5"; "x"; "0"; "1"; "7"]%string = Ok (Some (7, 5)%Z) /\
  shape_parser int_case ["l2scan"; "y"; "0"; "1"; "5"; "x"; "0"; "1"; "7"]%string = Ok (Some (5, 8)%Z) /\
  shape_parser int_case ["mesh"; "y"; "0"; "1"; "5"; "x"; "0"; "1"; "7"]%string = Ok (Some (6, 8)%Z) /\
  shape_parser int_case ["ct"; "1"]%string = Ok None /\ shape_parser int_case ["fscan2d"; "y"]%string = Err IndexError.
Proof. repeat split. Qed.

(* the first entry decides for all scans *)
Theorem C117_first_entry E int (title : E -> list string) task e l : entries task = e :: l -> scan_shape int title task = shape_parser int (title e).
Proof. exact (first_entry int title task e l). Qed.
Print Assumptions C117_first_entry.
Example C117_first_entry_case : scan_shape int_case (fun e : list string => e) (DTask [DPath true ["ct"]; DPath true ["fscan2d"]]%string) = Ok None.
Proof. reflexivity. Qed.

(* the parameter "shape" has no effect *)
Theorem C117_shape_refuted D shape shape' positioner parsed (datashape : D -> Z * Z) groups : execute shape positioner parsed datashape groups = execute shape' positioner parsed datashape groups.
Proof. exact (shape_ignored shape shape' positioner parsed datashape groups). Qed.
Print Assumptions C117_shape_refuted.
(* a title that is not understood gives a KeyError unless there is a group "parameters" *)
Theorem C117_no_shape_refuted D shape positioner (datashape : D -> Z * Z) groups : lookup String.eqb "parameters"%string groups = None -> execute shape positioner (Ok None) datashape groups = Err KeyError.
Proof. exact (no_shape shape positioner datashape groups). Qed.
Print Assumptions C117_no_shape_refuted.
Example C117_shape_case : execute (Some (2, 3)%Z) None (Ok (Some (4, 5)%Z)) (fun d : nat => (0, 0)%Z) [("a"%string, [1])] = Ok ([("a"%string, [1], false)], [5; 4]%Z) /\
  execute (Some (2, 3)%Z) None (Ok None) (fun d : nat => (0, 0)%Z) [("a"%string, [1])] = Err KeyError.
Proof. split; reflexivity. Qed.

(* with a positioner the axes have the sizes of the stacked data *)
Theorem C117_axes D shape axis scan (datashape : D -> Z * Z) groups out axes : (forall g, In g groups -> List.length (snd g) = List.length axis) -> execute shape (Some axis) (Ok (Some scan)) datashape groups = Ok (out, axes) ->
  forall g b, In (g, b) out -> merged_shape (List.length (snd g)) b scan = axes.
Proof. exact (axes_stack shape axis scan datashape groups out axes). Qed.
Print Assumptions C117_axes.
Example C117_axes_case : execute None (Some [Some (Qc_of_Z 2); Some (Qc_of_Z 1)]) (Ok (Some (4, 5)%Z)) (fun d : nat => (0, 0)%Z) [("a"%string, [10; 20])] = Ok ([("a"%string, [20; 10], true)], [2; 5; 4]%Z).
Proof. vm_compute. reflexivity. Qed.
(* without a positioner only groups with one source fit their axes *)
Theorem C117_no_positioner_refuted D shape scan (datashape : D -> Z * Z) groups out axes : execute shape None (Ok (Some scan)) datashape groups = Ok (out, axes) ->
  axes = [snd scan; fst scan] /\ forall g b, In (g, b) out -> In g groups /\ (merged_shape (List.length (snd g)) b scan = axes <-> List.length (snd g) = 1).
Proof. exact (axes_nostack shape scan datashape groups out axes). Qed.
Print Assumptions C117_no_positioner_refuted.
Example C117_no_positioner_case : execute None None (Ok (Some (4, 5)%Z)) (fun d : nat => (0, 0)%Z) [("a"%string, [10; 20])] = Ok ([("a"%string, [10; 20], true)], [5; 4]%Z) /\ merged_shape 2 true (4, 5)%Z = [2; 5; 4]%Z.
Proof. split; reflexivity. Qed.

(* reference image of the alignment *)
Theorem C117_reference_names n : prepare_reference n (RName "first") = Ok (Some 0%Z) /\ prepare_reference n (RName "last") = Ok (Some (-1)%Z) /\
  exists m, prepare_reference n (RName "middle") = Ok (Some m) /\ (2 * m <= Z.of_nat n < 2 * m + 2)%Z.
Proof. exact (reference_names n). Qed.
Print Assumptions C117_reference_names.
Theorem C117_reference_unknown n s : s <> "first"%string -> s <> "last"%string -> s <> "middle"%string -> prepare_reference n (RName s) = Err ValueError.
Proof. exact (reference_unknown n s). Qed.
Print Assumptions C117_reference_unknown.
Theorem C117_reference_as_given n z : prepare_reference n (RInt z) = Ok (Some z) /\ prepare_reference n RPairwise = Ok None.
Proof. exact (reference_as_given n z). Qed.
Print Assumptions C117_reference_as_given.
Theorem C117_reference_fraction n q : exists z, prepare_reference n (RFraction q) = Ok (Some z) /\ (Qc_of_Z z - Q2Qc (1 # 2) <= q * Qc_of_Z (Z.of_nat n) <= Qc_of_Z z + Q2Qc (1 # 2))%Qc.
Proof. exact (reference_fraction n q). Qed.
Print Assumptions C117_reference_fraction.
(* the fraction 1 is not the last image but one beyond it *)
Theorem C117_reference_end_refuted n : prepare_reference n (RFraction 1) = Ok (Some (Z.of_nat n)).
Proof. exact (reference_end n). Qed.
Print Assumptions C117_reference_end_refuted.
Example C117_reference_case : prepare_reference 5 (RName "middle") = Ok (Some 2%Z) /\ prepare_reference 5 (RName "Last") = Err ValueError /\ prepare_reference 5 (RFraction (Q2Qc (1 # 2))) = Ok (Some 2%Z) /\ prepare_reference 7 (RFraction (Q2Qc (1 # 2))) = Ok (Some 4%Z).
Proof. repeat split. Qed.

(* transformation of the images before alignment *)
Theorem C117_raw_none m o : rawcalc m o = None <-> m = None /\ o = None.
Proof. exact (raw_none m o). Qed.
Print Assumptions C117_raw_none.
Theorem C117_raw_both m o x f : rawcalc (Some m) (Some o) = Some f -> f x = (m * x + o)%Qc.
Proof. exact (raw_both m o x f). Qed.
Print Assumptions C117_raw_both.
Theorem C117_raw_one a x f : (rawcalc (Some a) None = Some f -> f x = (a * x)%Qc) /\ (rawcalc None (Some a) = Some f -> f x = (x + a)%Qc).
Proof. exact (raw_one a x f). Qed.
Print Assumptions C117_raw_one.
Example C117_raw_case : option_map (fun f => f (Qc_of_Z 2)) (rawcalc (Some (Qc_of_Z 3)) (Some (Qc_of_Z 1))) = Some (Qc_of_Z 7).
Proof. vm_compute. reflexivity. Qed.
