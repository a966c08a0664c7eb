(* Properties of batches of jobs *)
From Verif Require Import BatchSpec BatchProofs.
Local Open Scope list_scope.
Local Open Scope nat_scope.
Local Notation opt n l j a b := {| o_number := n; o_list := l; o_jobs := j; o_a := a; o_b := b |}.

(* without options all jobs are called in order, until one raises *)
Theorem C125_all J (raises : J -> option exn) o jobs : plain o -> o_jobs o = [] -> exists c e, context raises o jobs = mkOutcome None c e /\ called_in_order raises jobs c e.
Proof. exact (all_jobs raises o jobs). Qed.
Print Assumptions C125_all.
(* selected jobs are called in the order of the numbers, which start from one; too large numbers are left out *)
Theorem C125_selected J (raises : J -> option exn) o jobs l : plain o -> o_jobs o <> [] ->
  Forall2 (fun i r => match r with Some j => exists k, i = Z.of_nat (S k) /\ nth_error jobs k = Some j | None => (Z.of_nat (List.length jobs) < i)%Z end) (o_jobs o) l ->
  exists c e, context raises o jobs = mkOutcome None c e /\ called_in_order raises (flat_map (fun r => match r with Some j => [j] | None => [] end) l) c e.
Proof. exact (selected raises o jobs l). Qed.
Print Assumptions C125_selected.
Example C125_case : let raises := fun j => if j =? 7 then Some KeyError else None in
  context raises (opt false false [] 0%Z 0%Z) [5; 7; 9] = mkOutcome None [5; 7] (Some KeyError) /\
  context raises (opt false false [3; 1; 8; 3]%Z 0%Z 0%Z) [5; 7; 9] = mkOutcome None [9; 5; 9] None /\
  context raises (opt false true [] 0%Z 0%Z) [5; 7; 9] = mkOutcome (Some (PList [5; 7; 9])) [] None.
Proof. repeat split. Qed.
(* zero and negative numbers call jobs from the end *)
Theorem C125_number_refuted J (raises : J -> option exn) o jobs j k i : plain o -> nth_error jobs k = Some j -> i = (Z.of_nat k + 1 - Z.of_nat (List.length jobs))%Z -> o_jobs o = [i] ->
  (i <= 0)%Z /\ context raises o jobs = mkOutcome None [j] (raises j).
Proof. exact (last_job raises o jobs j k i). Qed.
Print Assumptions C125_number_refuted.
Example C125_number_case : context (fun _ => None) (opt false false [0; -1]%Z 0%Z 0%Z) [5; 7; 9] = mkOutcome None [9; 7] None.
Proof. reflexivity. Qed.
(* a range of jobs is never called *)
Theorem C125_range_refuted J (raises : J -> option exn) o jobs : o_number o = false -> o_list o = false -> (0 < o_a o)%Z \/ (0 < o_b o)%Z -> context raises o jobs = mkOutcome None [] (Some TypeError).
Proof. exact (range raises o jobs). Qed.
Print Assumptions C125_range_refuted.
Example C125_range_case : context (fun _ => None) (opt false false [1]%Z 2%Z 3%Z) [5; 7; 9] = mkOutcome None [] (Some TypeError).
Proof. reflexivity. Qed.
(* the number and the list of jobs are printed and nothing is called *)
Theorem C125_printed J (raises : J -> option exn) o jobs : (o_number o = true -> context raises o jobs = mkOutcome (Some (PNumber (List.length jobs))) [] None) /\
  (o_number o = false -> o_list o = true -> context raises o jobs = mkOutcome (Some (PList jobs)) [] None).
Proof. exact (printing raises o jobs). Qed.
Print Assumptions C125_printed.

(* tasks run in order up to and with the first one that is not done; true when all are done *)
Theorem C125_sequential T (run : list T -> T -> result bool) tasks ran r : run_sequential run [] tasks = (ran, r) ->
  (ran = tasks /\ r = Ok true /\ forall a t b, tasks = a ++ t :: b -> run a t = Ok true) \/
  (exists a t b, tasks = a ++ t :: b /\ ran = a ++ [t] /\ r = run a t /\ r <> Ok true /\
     forall a' t' b', a = a' ++ t' :: b' -> run a' t' = Ok true).
Proof. exact (sequential_0 run tasks ran r). Qed.
Print Assumptions C125_sequential.
Example C125_sequential_case : let run := fun before t => if t =? 7 then Err KeyError else Ok (List.length before <? t) in
  run_sequential run [] [5; 2; 2; 9] = ([5; 2; 2], Ok false) /\ run_sequential run [] [5; 2; 7; 9] = ([5; 2; 7], Err KeyError) /\ run_sequential run [] [5; 2; 3] = ([5; 2; 3], Ok true).
Proof. repeat split. Qed.
