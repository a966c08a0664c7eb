(* Predicates for batches of jobs *)
From Verif Require Export BatchModel.
Local Open Scope list_scope.
Local Open Scope nat_scope.

(* the jobs of l are called in order, all of them or up to and with the first one that raises *)
Definition called_in_order {J} (raises : J -> option exn) (l c : list J) (e : option exn) : Prop :=
  (c = l /\ e = None /\ forall j, In j l -> raises j = None) \/
  (exists a j b x, l = a ++ j :: b /\ c = a ++ [j] /\ e = Some x /\ raises j = Some x /\ forall i, In i a -> raises i = None).
(* no option to print and no range *)
Definition plain (o : options) : Prop := o_number o = false /\ o_list o = false /\ (o_a o <= 0)%Z /\ (o_b o <= 0)%Z.
