(* Properties of spectra in the SPEC format *)
From Verif Require Import McafileModel McafileSpec McafileProofs.
Local Open Scope list_scope.
Local Open Scope nat_scope.

(* lines of 16 numbers, each continued but the last, which has 1 to 16 numbers *)
Theorem C118_layout data : data <> [] -> exists full last, data = List.concat full ++ last /\ Forall (fun l => List.length l = 16) full /\ 1 <= List.length last <= 16 /\
  spec_mca data = Start :: flat_map (fun l => map Num l ++ [Cont; Newline]) full ++ map Num last ++ [Newline].
Proof. exact (layout data). Qed.
Print Assumptions C118_layout.
Example C118_layout_case : spec_mca (map Qc_of_Z [1; 2]%Z) = [Start; Num (Qc_of_Z 1); Num (Qc_of_Z 2); Newline] /\
  nth_error (spec_mca (repeat 1%Qc 17)) 17 = Some Cont /\ nth_error (spec_mca (repeat 1%Qc 16)) 17 = Some Newline /\ spec_mca [] = [Start].
Proof. repeat split. Qed.

(* a reader of this format gives the spectrum and stops behind it *)
Theorem C118_scan data rest : data <> [] -> scan_mca (spec_mca data ++ rest) = Some (data, rest).
Proof. exact (scanned data rest). Qed.
Print Assumptions C118_scan.
Example C118_scan_case : scan_mca (spec_mca (repeat 1%Qc 33) ++ [Start]) = Some (repeat 1%Qc 33, [Start]).
Proof. reflexivity. Qed.
Theorem C118_scan_saved data zero gain ch0 ch1 rest : exists rest', scan_mca (snd (save data zero gain ch0 ch1) ++ rest) = Some (data, rest').
Proof. exact (scanned_saved data zero gain ch0 ch1 rest). Qed.
Print Assumptions C118_scan_saved.
Example C118_scan_saved_case : scan_mca (snd (save [] 0%Qc 1%Qc None None)) = Some ([], []).
Proof. reflexivity. Qed.

(* the header has the number of channels, from the first channel that was asked for *)
Theorem C118_channels data zero gain ch0 : exists a b, In (Chann [Z.of_nat (List.length data); a; b; 1%Z]) (fst (save data zero gain ch0 None)) /\ (b - a + 1 = Z.of_nat (List.length data))%Z /\ (ch0 = None -> a = 0%Z) /\ (forall c, ch0 = Some c -> a = c).
Proof. exact (saved_channels data zero gain ch0). Qed.
Print Assumptions C118_channels.
Example C118_channels_case : In (Chann [3; 5; 7; 1]%Z) (fst (save [0%Qc; 0%Qc; 0%Qc] 0%Qc 1%Qc (Some 5%Z) None)).
Proof. cbn. tauto. Qed.

(* a file with a calibration cannot be read, in particular no file that was saved here *)
Theorem C118_calibration_refuted mca h l : In (Calib l) h -> read mca h = Err TypeError \/ read mca h = Err ValueError.
Proof. exact (calibrated mca h l). Qed.
Print Assumptions C118_calibration_refuted.
Theorem C118_saved_unreadable_refuted data zero gain ch0 ch1 mca : read mca (fst (save data zero gain ch0 ch1)) = Err TypeError.
Proof. exact (saved_unreadable data zero gain ch0 ch1 mca). Qed.
Print Assumptions C118_saved_unreadable_refuted.
Example C118_calibration_case : read [1%Qc; 1%Qc] [Calib [0%Qc; 1%Qc]] = Err TypeError.
Proof. reflexivity. Qed.

(* without calibration energies are channels, the channels those of the header; a zero is appended; one channel is always channel 0 *)
Theorem C118_read x mca n c0 c1 f : exists mca' channels energy, read (x :: mca) [Chann [n; c0; c1; f]] = Ok (mca', channels, energy, [0%Qc; 1%Qc]) /\ mca' = x :: mca ++ [0%Qc] /\ energy = map Qc_of_Z channels /\
  (c0 <> c1 -> List.length channels = Z.to_nat (c1 + 1 - c0) /\ forall i, i < List.length channels -> nth_error channels i = Some (c0 + Z.of_nat i)%Z) /\
  (c0 = c1 -> List.length channels = List.length mca' /\ forall i, i < List.length channels -> nth_error channels i = Some (Z.of_nat i)).
Proof. exact (uncalibrated x mca n c0 c1 f). Qed.
Print Assumptions C118_read.
Example C118_read_case : option_map (fun r => snd (fst (fst r))) (match read [1%Qc; 1%Qc] [Chann [3; 5; 7; 1]%Z] with Ok r => Some r | Err _ => None end) = Some [5; 6; 7]%Z.
Proof. reflexivity. Qed.
Theorem C118_bad_channels mca l : List.length l <> 4 -> read mca [Chann l] = Err ValueError.
Proof. exact (bad_channels mca l). Qed.
Print Assumptions C118_bad_channels.
Example C118_bad_channels_case : read [1%Qc] [Chann [3; 5; 7]%Z] = Err ValueError.
Proof. reflexivity. Qed.
