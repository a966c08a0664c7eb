(* Model of src/spectrocrunch/utils/timing.py: hms, strseconds and ProgressLogger. Times in exact seconds; floating point rounding is not modelled. *)
From Verif Require Export Base QcTac.
From Coq Require Export ZArith.
Local Open Scope Qc_scope.

(* int() of a number: towards zero *)
Definition int (q : Qc) : Z := Z.quot (Qnum (this q)) (Zpos (Qden (this q))).
(* 15-22 *)
Definition hms (seconds : Qc) : Z * Z * Z :=
  let hours := int (seconds / Qc_of_Z 3600) in
  let sec := seconds - Qc_of_Z (hours * 3600) in
  let min := int (sec / Qc_of_Z 60) in
  let sec := sec - Qc_of_Z (min * 60) in
  (hours, min, int sec).

(* 36-62: the state of a ProgressLogger *)
Record progress : Type := { nmax : Z; ncurrent : Z; nmaxfine : Z; ncurrentfine : Z }.
Definition setnfine (p : progress) (n : Z) : progress := {| nmax := nmax p; ncurrent := ncurrent p; nmaxfine := n; ncurrentfine := 0 |}.
Definition setn (p : progress) (n : Z) : progress := setnfine {| nmax := n; ncurrent := 0; nmaxfine := nmaxfine p; ncurrentfine := ncurrentfine p |} 1.
Definition ndone (p : progress) (n : Z) : progress := {| nmax := nmax p; ncurrent := (ncurrent p + n)%Z; nmaxfine := nmaxfine p; ncurrentfine := 0 |}.
Definition ndonefine (p : progress) (n : Z) : progress := {| nmax := nmax p; ncurrent := ncurrent p; nmaxfine := nmaxfine p; ncurrentfine := (ncurrentfine p + n)%Z |}.
Definition newprogress : progress := {| nmax := 1; ncurrent := 0; nmaxfine := 1; ncurrentfine := 0 |}.
(* a timedelta: days and seconds (0 <= seconds < 86400) *)
Record timedelta : Type := { days : Z; seconds : Z }.
(* 64-78 printprogress: elapsed time, percentage done, time left, percentage left *)
Definition printprogress (p : progress) (dt : timedelta) : result ((Z * Z * Z) * Z * (Z * Z * Z) * Z) :=
  let n := (nmax p * nmaxfine p)%Z in
  let c := (ncurrent p * nmaxfine p + ncurrentfine p)%Z in
  let elapsed := Qc_of_Z (seconds dt) in
  if (c =? 0)%Z then Err ZeroDivisionError
  else
    let left := hms (elapsed * (Qc_of_Z n / Qc_of_Z c - 1)) in
    if (n =? 0)%Z then Err ZeroDivisionError
    else
      let pdone := int (Qc_of_Z c / Qc_of_Z n * Qc_of_Z 100) in
      Ok (hms elapsed, pdone, left, (100 - pdone)%Z).
