(* Vocabulary for resampling on encoder positions. *)
From Verif Require Import Base QcTac ZList AxisModel AxisSpec ResampleModel.
Local Open Scope Qc_scope.

(* the first and the last measured position of the lines *)
Definition begins (lines : list (list Qc)) (x : Qc) : Prop := exists l, In l lines /\ point l 0 = Some x.
Definition ends (lines : list (list Qc)) (x : Qc) : Prop := exists l, In l lines /\ point l (plen l - 1) = Some x.
(* along D, x is not after y *)
Definition upto (D x y : Qc) : Prop := 0 <= (y - x) / D.
(* v and w: with crop the latest begin and the earliest end of the lines, otherwise the earliest begin and the latest end *)
Definition limits (lines : list (list Qc)) (crop : bool) (D v w : Qc) : Prop :=
  begins lines v /\ ends lines w /\
  (forall x, begins lines x -> if crop then upto D x v else upto D v x) /\
  (forall y, ends lines y -> if crop then upto D w y else upto D y w).
(* an index of an array addressed with integers and full slices *)
Definition addressed (index : list index) (i : list nat) : Prop := Forall2 (fun a n => match a with At k => k = n | All => True end) index i.
Definition within (shape i : list nat) : Prop := Forall2 (fun n k => (k < n)%nat) shape i.
(* a scan of n points from s with step d, of which lines of encoder positions have been measured *)
Definition scanned (position : axis) (s d : Qc) (n : Z) (r : Qc) (lines : list (list Qc)) : Prop :=
  progression (a_values position) s d n /\ (2 <= n)%Z /\ d <> 0 /\ r <> 0 /\ lines <> [] /\ (forall l, In l lines -> l <> []).
