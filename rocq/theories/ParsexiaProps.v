(* C113: files of an XRF scan per detector (xrf/parse_xia.py) *)
From Verif Require Import ListToolsModel ParsexiaModel ParsexiaSpec ParsexiaProofs.
From Coq Require Import Sorted.
Local Open Scope list_scope.
Local Open Scope nat_scope.

(* With one scan name, any number of scan numbers and equally many files for each detector, the groups are the files of each detector, in order. *)
Theorem C113_detectors : forall l ds n, (forall f g, In f l -> In g l -> scanname f = scanname g) -> StronglySorted lt ds -> ds <> [] -> (forall f, In f l -> In (detector f) ds) ->
  (forall d, In d ds -> List.length (filter (fun f => detector f =? d) l) = n) -> 0 < n ->
  group (sorted file_leb l) (List.length ds) = Ok (map (fun d => filter (fun f => detector f =? d) (sorted file_leb l)) ds).
Proof. exact group_detectors. Qed.
Print Assumptions C113_detectors.
Definition file_of (s d n i : nat) : file := {| scanname := s; detector := d; scannumber := n; line := i |}.
Example detectors_example : group (sorted file_leb [file_of 0 3 1 0; file_of 0 1 2 0; file_of 0 1 1 0; file_of 0 3 2 0]) 2 =
  Ok [[file_of 0 1 1 0; file_of 0 1 2 0]; [file_of 0 3 1 0; file_of 0 3 2 0]].
Proof. reflexivity. Qed.
(* With as many scan names as detectors the groups are the files of each scan, all detectors together. *)
Theorem C113_scans_refuted : forall l names n, StronglySorted lt names -> names <> [] -> (forall f, In f l -> In (scanname f) names) ->
  (forall d, In d names -> List.length (filter (fun f => scanname f =? d) l) = n) -> 0 < n ->
  group (sorted file_leb l) (List.length names) = Ok (map (fun d => filter (fun f => scanname f =? d) (sorted file_leb l)) names).
Proof. exact group_scans. Qed.
Print Assumptions C113_scans_refuted.
Example scans_example : group (sorted file_leb [file_of 0 0 1 0; file_of 0 1 1 0; file_of 1 0 1 0; file_of 1 1 1 0]) 2 =
  Ok [[file_of 0 0 1 0; file_of 0 1 1 0]; [file_of 1 0 1 0; file_of 1 1 1 0]].
Proof. reflexivity. Qed.
(* No file is lost and there are at least as many groups as detectors. *)
Theorem C113_all : forall l ndet gs, group l ndet = Ok gs -> concat gs = l.
Proof. exact group_all. Qed.
Print Assumptions C113_all.
Theorem C113_number_partial : forall l ndet gs, group l ndet = Ok gs -> 0 < ndet -> ndet <= List.length gs.
Proof. exact group_number. Qed.
Print Assumptions C113_number_partial.
(* There can be more groups when the numbers of files differ. *)
Example number_example : exists gs, group (map (fun i => file_of 0 (i / 3) 1 (i mod 3)) (seq 0 8)) 3 = Ok gs /\ List.length gs = 4.
Proof. eexists. split; reflexivity. Qed.
(* Fewer files than detectors, in particular no file, is an error. *)
Theorem C113_few_refuted : forall l ndet, List.length l < ndet -> group l ndet = Err ValueError.
Proof. exact group_few. Qed.
Print Assumptions C113_few_refuted.

(* The detectors are those of the first line that are not excluded, without the statistics. *)
Theorem C113_detnums : forall x0 xs exclude dt add fit single found out ds, parse_xia (Some (x0 :: xs)) exclude dt add fit single found = Ok (out, ds) ->
  forall d, In d ds <-> (exists f, In (Spectra f) x0 /\ detector f = d) /\ ~ In d exclude.
Proof. exact parse_detectors. Qed.
Print Assumptions C113_detnums.
(* The sum of at least two detectors is one group of files. *)
Theorem C113_sum : forall x0 xs exclude dt fit single found, 2 <= List.length (kept exclude x0) ->
  parse_xia (Some (x0 :: xs)) exclude dt true fit single found = Ok ([sorted file_leb (found true)], kept exclude x0).
Proof. exact parse_sum. Qed.
Print Assumptions C113_sum.
(* A single detector is not summed, and not corrected when that is not asked for. *)
Theorem C113_single : forall x0 xs exclude add fit found d, kept exclude x0 = [d] -> fit = true ->
  parse_xia (Some (x0 :: xs)) exclude true add fit false found = parse_xia (Some (x0 :: xs)) exclude false false fit true found.
Proof. exact parse_single. Qed.
Print Assumptions C113_single.
(* Nothing is done without detectors. *)
Theorem C113_nothing : forall x0 xs exclude dt add fit single found, kept exclude x0 = [] -> parse_xia (Some (x0 :: xs)) exclude dt add fit single found = Ok ([[]], []).
Proof. exact parse_nothing. Qed.
Print Assumptions C113_nothing.
(* Corrected detectors: the files found are grouped. *)
Theorem C113_corrected : forall x0 xs exclude fit found ds, kept exclude x0 = ds -> ds <> [] ->
  parse_xia (Some (x0 :: xs)) exclude true false fit true found = (let! g := group (sorted file_leb (found false)) (List.length ds) in Ok (g, ds)).
Proof. exact parse_corrected. Qed.
Print Assumptions C113_corrected.
(* Neither summed nor corrected: the raw files that are not excluded are grouped. *)
Theorem C113_raw : forall x0 xs exclude single found ds l, kept exclude x0 = ds -> ds <> [] ->
  l = flat_map (flat_map (fun x => match x with Spectra f => if existsb (Nat.eqb (detector f)) exclude then [] else [f] | Stat => [] end)) (x0 :: xs) ->
  parse_xia (Some (x0 :: xs)) exclude false false true single found = (let! g := group (sorted file_leb l) (List.length ds) in Ok (g, ds)).
Proof. exact parse_raw. Qed.
Print Assumptions C113_raw.
Example raw_example : parse_xia (Some [[Spectra (file_of 0 0 1 0); Spectra (file_of 0 1 1 0); Spectra (file_of 0 2 1 0); Stat]; [Spectra (file_of 0 0 1 1); Spectra (file_of 0 1 1 1); Spectra (file_of 0 2 1 1); Stat]])
  [1] false false true true (fun _ => []) = Ok ([[file_of 0 0 1 0; file_of 0 0 1 1]; [file_of 0 2 1 0; file_of 0 2 1 1]], [0; 2]).
Proof. reflexivity. Qed.
