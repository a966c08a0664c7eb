(* Vocabulary for the peak shape *)
From Verif Require Export PeakModel.
Local Open Scope Qc_scope.

(* neither the slopes nor the integrals vanish *)
Definition regular {E} (I : shape_integrals E) (u : E) (s1 s2 : Qc) : Prop :=
  s1 <> 0 /\ s2 <> 0 /\ tnorm I u s1 <> 0 /\ tnorm I u s2 <> 0 /\ gnorm I u <> 0 /\ snorm I u <> 0.

(* a small instance *)
Definition ex_integrals : shape_integrals Qc :=
  {| gsigma := fun u => u; gnorm := fun _ => 1; snorm := fun u => u + u; tnorm := fun u s => u + s |}.
Definition ex_peak (bp : bool) (w : triple) : peak Qc :=
  {| conversionenergy := None; fixedarearatios := true; bpeak := bp; broadenings := Some (1, Qc_of_Z 2);
     slopes := None; fractions := Some w; ratios := None |}.
