(* Properties of fits of several detectors *)
From Verif Require Import BlissfitSpec BlissfitProofs.
Local Open Scope string_scope.
Local Open Scope list_scope.
Local Open Scope nat_scope.
Local Notation q := Qc_of_Z.

(* items of type mca are detectors, all others are counters *)
Theorem C123_classes l i : In i l -> (i_type i = Some "mca" -> In i (detectors l) /\ ~ In i (counters l)) /\ (i_type i <> Some "mca" -> In i (counters l) /\ ~ In i (detectors l)).
Proof. exact (classes l i). Qed.
Print Assumptions C123_classes.
(* one configuration for all detectors, or one for each; none when there are none *)
Theorem C123_configurations C (cfgs : list C) n :
  (cfgs = [] -> configurations cfgs n = Ok (repeat None n)) /\
  (cfgs <> [] -> List.length cfgs = n -> configurations cfgs n = Ok (map Some cfgs)) /\
  (forall c, cfgs = [c] -> configurations cfgs n = Ok (repeat (Some c) n)) /\
  (1 < List.length cfgs -> List.length cfgs <> n -> configurations cfgs n = Err RuntimeError).
Proof. exact (configurations_spec cfgs n). Qed.
Print Assumptions C123_configurations.
(* no detectors, and a wrong number of configurations, are errors *)
Theorem C123_errors C (fit : C -> item -> groups) cfgs l : (detectors l = [] -> execute fit cfgs l = Err RuntimeError) /\
  (detectors l <> [] -> 1 < List.length cfgs -> List.length cfgs <> List.length (detectors l) -> execute fit cfgs l = Err RuntimeError).
Proof. exact (execute_errors fit cfgs l). Qed.
Print Assumptions C123_errors.

(* a signal of the first detector is summed over the detectors that have it with the same size; a signal that the first detector does not have is lost *)
Theorem C123_sum C (fit : C -> item -> groups) cfgs l d c dets cs :
  detectors l = d :: dets -> NoDup (map i_name (counters l)) -> (forall j j', In j (counters l) -> In j' (counters l) -> List.length (i_data j) = List.length (i_data j')) ->
  configurations cfgs (S (List.length dets)) = Ok (Some c :: map Some cs) -> (forall c d, proper (fit c d)) ->
  exists out, execute fit cfgs l = Ok out /\
  forall g s, In g ["parameters"; "massfractions"] ->
  (forall v, value (fit c d) g s = Some v -> exists w, value out g s = Some w /\ List.length w = List.length v /\
     forall k, k < List.length v -> nth k w 0%Qc = (nth k v 0 + sum_over (map (fun cd => fit (fst cd) (snd cd)) (combine cs dets)) g s (List.length v) k)%Qc) /\
  (value (fit c d) g s = None -> value out g s = None).
Proof. exact (execute_fits_counters fit cfgs l d c dets cs). Qed.
Print Assumptions C123_sum.
(* the elements fitted with the second configuration only are lost; mass fractions are summed like peak areas *)
Example C123_sum_case :
  let fit := fun (c : string) (d : item) => [("parameters", [(c, i_data d); ("Fe", i_data d)]); ("massfractions", [("Fe", [q 1; q 1])])] in
  match execute fit ["Ca"; "K"] [mkItem "a" (Some "mca") [q 1; q 2]; mkItem "b" (Some "mca") [q 10; q 20]] with
  | Ok out => value out "parameters" "Ca" = Some [q 1; q 2] /\ value out "parameters" "K" = None /\ value out "parameters" "Fe" = Some [q 11; q 22] /\
              value out "massfractions" "Fe" = Some [q 2; q 2]
  | Err _ => False
  end.
Proof. vm_compute. repeat split; repeat f_equal; apply Qc_is_canon; reflexivity. Qed.

(* a counter is multiplied with the number of detectors *)
Theorem C123_counters_refuted C (fit : C -> item -> groups) cfgs l cs i :
  configurations cfgs (List.length (detectors l)) = Ok cs -> detectors l <> [] -> In i l -> i_type i <> Some "mca" ->
  NoDup (map i_name (counters l)) -> (forall j j', In j (counters l) -> In j' (counters l) -> List.length (i_data j) = List.length (i_data j')) -> (forall c d, proper (fit c d) /\ lookup String.eqb "counters" (fit c d) = None) ->
  exists out w, execute fit cfgs l = Ok out /\ value out "counters" (i_name i) = Some w /\ List.length w = List.length (i_data i) /\
  forall k, k < List.length (i_data i) -> nth k w 0%Qc = (Qc_of_Z (Z.of_nat (List.length (detectors l))) * nth k (i_data i) 0)%Qc.
Proof. exact (counters_multiplied fit cfgs l cs i). Qed.
Print Assumptions C123_counters_refuted.
Example C123_counters_case :
  let fit := fun (_ : string) (d : item) => [("parameters", [("Fe", i_data d)])] in
  match execute fit ["cfg"] [mkItem "a" (Some "mca") [q 1; q 2]; mkItem "iodet" None [q 7; q 8]; mkItem "b" (Some "mca") [q 10; q 20]; mkItem "c" (Some "mca") [q 100; q 200]] with
  | Ok out => value out "parameters" "Fe" = Some [q 111; q 222] /\ value out "counters" "iodet" = Some [q 21; q 24]
  | Err _ => False
  end.
Proof. vm_compute. repeat split; repeat f_equal; apply Qc_is_canon; reflexivity. Qed.

(* counters of different shapes are an error *)
Theorem C123_counter_shapes C (fit : C -> item -> groups) cfgs l cs j j' :
  configurations cfgs (List.length (detectors l)) = Ok cs -> detectors l <> [] -> In j (counters l) -> In j' (counters l) -> List.length (i_data j) <> List.length (i_data j') ->
  execute fit cfgs l = Err ValueError.
Proof. exact (counters_shapes fit cfgs l cs j j'). Qed.
Print Assumptions C123_counter_shapes.
Example C123_counter_shapes_case : execute (fun (_ : string) (_ : item) => []) ["cfg"] [mkItem "a" (Some "mca") [q 1]; mkItem "i" None [q 7; q 8]; mkItem "j" (Some "motor") [q 7]] = Err ValueError.
Proof. reflexivity. Qed.
