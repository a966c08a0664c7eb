(* Predicates for the properties of prepared spectra *)
From Verif Require Export McapreModel.
Local Open Scope list_scope.
Local Open Scope nat_scope.

(* the live time counter of a detector *)
Definition has_livetime (d : detector) (lt : nat -> Qc) : Prop :=
  d_live_time d = Some lt \/ (d_live_time d = None /\ d_output_live_time d = Some lt).
Definition no_counter (d : detector) : Prop := d_live_time d = None /\ d_output_live_time d = None /\ d_events d = None.
Definition covered (blocks : list (nat -> nat -> bool)) (p c : nat) : Prop := exists b, In b blocks /\ b p c = true.
(* the sum over detectors of counts times preset time over live time *)
Fixpoint total (preset : Qc) (dl : list (detector * (nat -> Qc))) (p c : nat) : Qc :=
  match dl with
  | [] => 0%Qc
  | (d, lt) :: dl' => (d_data d p c * preset / lt p + total preset dl' p c)%Qc
  end.
Definition is_integer (q : Qc) : Prop := exists z, q = Qc_of_Z z.
