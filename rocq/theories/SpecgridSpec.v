(* Vocabulary for the positions of a scan. *)
From Coq Require Import String QArith Qcanon.
From Verif Require Export ScanSpec SpecgridModel.
Local Open Scope nat_scope.

(* the centres of n cells of the same width that fill the interval *)
Definition centres (start stop : Qc) (n : nat) (l : list Qc) : Prop :=
  length l = n /\ exists edge : nat -> Qc, edge 0 = start /\ edge n = stop /\
  (forall i, i < n -> (edge (S i) - edge i)%Qc = (edge (S O) - edge O)%Qc) /\
  (forall i, i < n -> nth_error l i = Some ((edge i + edge (S i)) / Qc_of_Z 2)%Qc).
(* n steps of the same size from start to stop *)
Definition steps (start stop : Qc) (n : nat) (l : list Qc) : Prop :=
  length l = S n /\ nth_error l 0 = Some start /\ nth_error l n = Some stop /\
  (forall i a b c d, nth_error l i = Some a -> nth_error l (S i) = Some b -> nth_error l 0 = Some c -> nth_error l 1 = Some d -> (b - a)%Qc = (d - c)%Qc).
(* the position of a motor: the first of that name, whatever its case *)
Definition held (names : list chars) (values : list Qc) (m : chars) (v : Qc) : Prop :=
  exists pre n post, names = pre ++ n :: post /\ lower n = m /\ (forall x, In x pre -> lower x <> m) /\ nth_error values (length pre) = Some v.
