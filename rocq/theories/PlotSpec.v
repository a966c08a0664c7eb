(* Vocabulary of the properties of plot groups. *)
From Verif Require Export PlotModel.
From Coq Require Export Permutation Sorted.

(* the signals in the attributes, the default first *)
Definition listed (d : nxdata) : list chars := sigs d ++ auxs d.
(* a data set, or a link to an existing one *)
Definition there (d : nxdata) (n : chars) (shape : list Z) : Prop :=
  lookup n (x_mem d) = Some (Dset shape) \/ lookup n (x_mem d) = Some (Link (Some shape)).

Definition consistent (d : nxdata) : Prop :=
  (x_signal d = None -> x_aux d = None) /\ x_aux d <> Some [] /\
  NoDup (listed d) /\ NoDup (map fst (x_mem d)) /\
  forall n, In n (listed d) -> exists s, there d n s.

(* operations that keep the group consistent: a new signal is not listed yet and exists; the
   only signal is not removed *)
Definition proper (d : nxdata) (o : op) : Prop :=
  match o with
  | Add n s => ~ In n (listed d) /\ s <> LinkTo None
  | Remove n => listed d <> [n]
  | _ => True
  end.
Fixpoint all_proper (d : nxdata) (l : list op) : Prop :=
  match l with [] => True | o :: l' => proper d o /\ all_proper (step d o) l' end.

Definition le_name (a b : chars) : Prop := chars_ltb b a = false.
(* all signals have this shape *)
Definition uniform (d : nxdata) (s0 : list Z) : Prop := forall n, In n (listed d) -> there d n s0.
