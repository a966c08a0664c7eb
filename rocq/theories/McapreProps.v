(* Properties of prepared spectra *)
From Verif Require Import McapreSpec McapreProofs.
Local Open Scope string_scope.
Local Open Scope list_scope.
Local Open Scope nat_scope.
Local Notation q := Qc_of_Z.
Local Notation det data lt olt ev icr := {| d_data := data; d_live_time := lt; d_output_live_time := olt; d_events := ev; d_trigger_count_rate := icr |}.

(* the detectors with a name that matches a pattern *)
Theorem C122_matching matches names patterns n : In n (matching_names matches names patterns) <-> In n names /\ exists p, In p patterns /\ matches p n = true.
Proof. exact (matching_in matches names patterns n). Qed.
Print Assumptions C122_matching.
(* a detector is used as often as there are patterns for it *)
Theorem C122_matching_once_refuted matches names patterns n : NoDup names -> In n names ->
  count_occ string_dec (matching_names matches names patterns) n = List.length (filter (fun p => matches p n) patterns).
Proof. exact (matching_count matches names patterns n). Qed.
Print Assumptions C122_matching_once_refuted.
Example C122_matching_case : matching_names String.prefix ["mca1"; "mca2"; "iodet"] ["mca"; "mca1"] = ["mca1"; "mca2"; "mca1"].
Proof. reflexivity. Qed.

(* the sum over detectors of the counts times preset time over live time; not a number when a live time is zero *)
Theorem C122_sum preset blocks suffix dets lts : dets <> [] -> Forall2 (fun nd lt => has_livetime (snd nd) lt) dets lts -> exists r,
  execute true true false preset blocks suffix dets = Ok [(String.append "mca" suffix, r)] /\ forall p c, covered blocks p c ->
  ((forall l, In l lts -> l p <> 0%Qc) -> r p c = Some (total preset (combine (map snd dets) lts) p c)) /\
  ((exists l, In l lts /\ l p = 0%Qc) -> r p c = None).
Proof. exact (execute_sum preset blocks suffix dets lts). Qed.
Print Assumptions C122_sum.
Example C122_sum_case :
  let d1 := det (fun p c => q (Z.of_nat (p + c))) (Some (fun _ => q 2)) None None None in
  let d2 := det (fun p c => q 5) None (Some (fun p => q (Z.of_nat p))) None None in
  match execute true true false (q 10) [fun p _ => p <? 2; fun p _ => negb (p <? 2)] "cor" [("a", d1); ("b", d2)] with
  | Ok [(n, r)] => n = "mcacor" /\ r 1 3 = Some (q 70) /\ r 2 4 = Some (q 55) /\ r 0 0 = None
  | _ => False
  end.
Proof. vm_compute. repeat split; try reflexivity; first [apply Qc_is_canon; reflexivity | apply f_equal, Qc_is_canon; reflexivity]. Qed.
(* with integer live times and preset time the sum is truncated for each detector *)
Theorem C122_integer_refuted preset blocks suffix dets lts : dets <> [] -> Forall2 (fun nd lt => has_livetime (snd nd) lt) dets lts -> (0 <= preset)%Qc -> exists r,
  execute true true true preset blocks suffix dets = Ok [(String.append "mca" suffix, r)] /\ forall p c, covered blocks p c ->
  (forall l, In l lts -> (0 < l p)%Qc) -> (forall n d, In (n, d) dets -> (0 <= d_data d p c)%Qc) ->
  exists z, r p c = Some z /\ is_integer z /\ (z <= total preset (combine (map snd dets) lts) p c)%Qc /\
  (total preset (combine (map snd dets) lts) p c < z + Qc_of_Z (Z.of_nat (List.length dets)))%Qc.
Proof. exact (execute_integer preset blocks suffix dets lts). Qed.
Print Assumptions C122_integer_refuted.
Example C122_integer_case :
  let d := det (fun _ _ => q 3) (Some (fun _ => q 2)) None None None in
  match execute true true true (q 1) [fun _ _ => true] "cor" [("a", d); ("b", d)] with
  | Ok [(_, r)] => r 0 0 = Some (q 2) /\ total (q 1) [(d, fun _ => q 2); (d, fun _ => q 2)] 0 0 = q 3
  | _ => False
  end.
Proof. vm_compute. repeat split; try reflexivity; first [apply Qc_is_canon; reflexivity | apply f_equal, Qc_is_canon; reflexivity]. Qed.

(* the correction of each detector apart *)
Theorem C122_dtcor preset blocks suffix dets lts : dets <> [] -> Forall2 (fun nd lt => has_livetime (snd nd) lt) dets lts -> NoDup (map fst dets) ->
  exists rs, execute false true false preset blocks suffix dets = Ok rs /\
  map fst rs = map (fun nd => String.append (fst nd) suffix) dets /\
  forall k n d lt, nth_error dets k = Some (n, d) -> nth_error lts k = Some lt -> exists r, nth_error (map snd rs) k = Some r /\
  forall p c, covered blocks p c -> (lt p <> 0%Qc -> r p c = Some (d_data d p c * preset / lt p)%Qc) /\ (lt p = 0%Qc -> r p c = None).
Proof. exact (dtcor_outputs preset blocks suffix dets lts). Qed.
Print Assumptions C122_dtcor.
Example C122_dtcor_case :
  let d1 := det (fun p c => q (Z.of_nat (p + c))) (Some (fun _ => q 2)) None None None in
  let d2 := det (fun p c => q 5) None (Some (fun p => q (Z.of_nat p))) None None in
  match execute false true false (q 10) [fun _ _ => true] "cor" [("a", d1); ("b", d2)] with
  | Ok [(n, r); (m, r')] => n = "acor" /\ m = "bcor" /\ r 1 3 = Some (q 20) /\ r' 1 3 = Some (q 50) /\ r' 0 0 = None
  | _ => False
  end.
Proof. vm_compute. repeat split; try reflexivity; first [apply Qc_is_canon; reflexivity | apply f_equal, Qc_is_canon; reflexivity]. Qed.
(* a detector that matches two patterns is an error here *)
Theorem C122_dtcor_twice_refuted integer preset blocks suffix dets : Forall (fun nd => exists lt, has_livetime (snd nd) lt) dets -> ~ NoDup (map fst dets) ->
  execute false true integer preset blocks suffix dets = Err ValueError.
Proof. exact (dtcor_double integer preset blocks suffix dets). Qed.
Print Assumptions C122_dtcor_twice_refuted.
Example C122_dtcor_twice_case :
  let d := det (fun _ _ => q 3) (Some (fun _ => q 2)) None None None in
  execute false true false (q 1) [fun _ _ => true] "cor" [("a", d); ("b", d); ("a", d)] = Err ValueError.
Proof. vm_compute. reflexivity. Qed.

(* without correction one detector is linked, two detectors are an error *)
Theorem C122_link integer preset blocks suffix n d : execute false false integer preset blocks suffix [(n, d)] = Ok [(String.append "mca" suffix, fun p c => Some (d_data d p c))].
Proof. exact (link_one integer preset blocks suffix n d). Qed.
Print Assumptions C122_link.
Theorem C122_link_refuted integer preset blocks suffix x y l : execute false false integer preset blocks suffix (x :: y :: l) = Err ValueError.
Proof. exact (link_two integer preset blocks suffix x y l). Qed.
Print Assumptions C122_link_refuted.
(* no detectors, and a sum without correction, are errors *)
Theorem C122_errors dtcor integer preset blocks suffix add x l :
  execute add dtcor integer preset blocks suffix [] = Err RuntimeError /\ execute true false integer preset blocks suffix (x :: l) = Err AssertionError.
Proof. exact (execute_errors dtcor integer preset blocks suffix add x l). Qed.
Print Assumptions C122_errors.
(* a detector without counters for the live time is an error *)
Theorem C122_no_livetime integer preset blocks suffix dets n d : In (n, d) dets -> no_counter d ->
  execute true true integer preset blocks suffix dets = Err RuntimeError.
Proof. exact (execute_missing integer preset blocks suffix dets n d). Qed.
Print Assumptions C122_no_livetime.
Theorem C122_no_livetime_dtcor integer preset blocks suffix n d l : no_counter d -> execute false true integer preset blocks suffix ((n, d) :: l) = Err RuntimeError.
Proof. exact (dtcor_missing integer preset blocks suffix n d l). Qed.
Print Assumptions C122_no_livetime_dtcor.
Example C122_no_livetime_case :
  let d := det (fun _ _ => q 3) (Some (fun _ => q 2)) None None None in let e := det (fun _ _ => q 3) None None None (Some (fun _ => q 7)) in
  execute true true false (q 1) [fun _ _ => true] "cor" [("a", d); ("b", e)] = Err RuntimeError /\ no_counter e.
Proof. split; [vm_compute; reflexivity|repeat split]. Qed.

(* the live time from events does not depend on the trigger count rate: it is one *)
Theorem C122_events_refuted d ev : d_live_time d = None -> d_output_live_time d = None -> d_events d = Some ev -> exists lt,
  livetime d = Ok lt /\ forall p, (ev p <> 0%Qc -> lt p = Some 1%Qc) /\ (ev p = 0%Qc -> lt p = None).
Proof. exact (events_ignored d ev). Qed.
Print Assumptions C122_events_refuted.
Example C122_events_case :
  match livetime (det (fun _ _ => q 3) None None (Some (fun p => q (Z.of_nat p * 10))) (Some (fun _ => q 5))) with
  | Ok lt => lt 3 = Some (q 1) /\ lt 0 = None | Err _ => False end.
Proof. vm_compute. repeat split; try reflexivity; first [apply Qc_is_canon; reflexivity | apply f_equal, Qc_is_canon; reflexivity]. Qed.

(* the output of a counter is the last part of its name: the detector is lost *)
Theorem C122_counter_refuted a b c l : counter_output [a] = Ok a /\ counter_output [a; b] = Ok b /\ counter_output (a :: b :: c :: l) = Err ValueError.
Proof. exact (counter_cases a b c l). Qed.
Print Assumptions C122_counter_refuted.
Example C122_counter_case : counter_output ["mca1"; "events"] = counter_output ["mca2"; "events"].
Proof. reflexivity. Qed.
