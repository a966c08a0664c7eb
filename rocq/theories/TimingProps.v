(* C114: elapsed time and progress (utils/timing.py) *)
From Verif Require Import TimingModel TimingProofs.
Local Open Scope Qc_scope.

(* Hours, minutes and seconds: less than 60 minutes and seconds, together the whole seconds of the time. *)
Theorem C114_time : forall t h m s, 0 <= t -> hms t = (h, m, s) -> (0 <= h)%Z /\ (0 <= m < 60)%Z /\ (0 <= s < 60)%Z /\
  Qc_of_Z (3600 * h + 60 * m + s) <= t /\ t < Qc_of_Z (3600 * h + 60 * m + s + 1).
Proof. exact time. Qed.
Print Assumptions C114_time.
Example time_example : hms (Q2Qc (14723 # 2)) = (2, 2, 41)%Z.
Proof. reflexivity. Qed.
(* The time left: what is done takes the elapsed time, what is left takes the rest in proportion; the percentage done is rounded down. *)
Theorem C114_progress : forall p dt c n, c = (ncurrent p * nmaxfine p + ncurrentfine p)%Z -> n = (nmax p * nmaxfine p)%Z -> (0 < c <= n)%Z ->
  exists done left, printprogress p dt = Ok (hms (Qc_of_Z (seconds dt)), done, hms left, (100 - done)%Z) /\
    left * Qc_of_Z c = Qc_of_Z (seconds dt) * Qc_of_Z (n - c) /\ (done * n <= 100 * c < (done + 1) * n)%Z.
Proof. exact print_ok. Qed.
Print Assumptions C114_progress.
Example progress_example : printprogress (ndonefine (setnfine (ndone (setn newprogress 3) 1) 4) 2) {| days := 0; seconds := 90 |} = Ok ((0, 1, 30)%Z, 50%Z, (0, 1, 30)%Z, 50%Z).
Proof. reflexivity. Qed.
(* At the end nothing is left. *)
Theorem C114_finished : forall p dt n, n = (nmax p * nmaxfine p)%Z -> (0 < n)%Z -> (ncurrent p * nmaxfine p + ncurrentfine p)%Z = n ->
  printprogress p dt = Ok (hms (Qc_of_Z (seconds dt)), 100%Z, (0, 0, 0)%Z, 0%Z).
Proof. exact print_finished. Qed.
Print Assumptions C114_finished.
(* All fine steps of a step are one step. *)
Theorem C114_fine : forall p dt, printprogress (ndonefine p (nmaxfine p - ncurrentfine p)) dt = printprogress (ndone p 1) dt.
Proof. exact fine_steps. Qed.
Print Assumptions C114_fine.
(* It fails when nothing is done yet or there is nothing to do, and only then. *)
Theorem C114_start_refuted : forall p n dt, printprogress (setn p n) dt = Err ZeroDivisionError.
Proof. exact print_start. Qed.
Print Assumptions C114_start_refuted.
Theorem C114_error : forall p dt, printprogress p dt = Err ZeroDivisionError <-> (ncurrent p * nmaxfine p + ncurrentfine p = 0)%Z \/ (nmax p * nmaxfine p = 0)%Z.
Proof. exact print_error. Qed.
Print Assumptions C114_error.
(* Whole days of elapsed time are forgotten. *)
Theorem C114_days_refuted : forall p dt dt', seconds dt = seconds dt' -> printprogress p dt = printprogress p dt'.
Proof. exact print_days. Qed.
Print Assumptions C114_days_refuted.
