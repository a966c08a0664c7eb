(* Vocabulary for the statements about utils/classfactory.py. *)
From Verif Require Export ClassFactoryModel.

(* c is the last element of l with property P *)
Definition last_such {A} (P : A -> Prop) (l : list A) (c : A) : Prop :=
  exists l1 l2, l = l1 ++ c :: l2 /\ P c /\ Forall (fun x => ~ P x) l2.

(* the strings, other than its name, a class can be found under *)
Definition answers_to (s : string) (c : pycls) : Prop :=
  s = lower (cname c) \/ exists a, In a (cls_aliases c) /\ (s = a \/ s = lower a).
