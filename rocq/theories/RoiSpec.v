(* Vocabulary for the statements about utils/roi.py. *)
From Verif Require Export RoiModel.

(* A point of a closed interval / of a half-open interval. *)
Definition in_closed {A} (le : A -> A -> bool) (x : A) (iv : A * A) : Prop :=
  le (fst iv) x = true /\ le x (snd iv) = true.
Definition in_half_open {A} (le : A -> A -> bool) (x : A) (iv : A * A) : Prop :=
  le (fst iv) x = true /\ le (snd iv) x = false.

Definition total_order {A} (le : A -> A -> bool) : Prop :=
  (forall x y, le x y = true \/ le y x = true) /\
  (forall x y z, le x y = true -> le y z = true -> le x z = true) /\
  (forall x y, le x y = true -> le y x = true -> x = y).

(* Every interval ends strictly before the next one begins. *)
Fixpoint separated {A} (le : A -> A -> bool) (l : list (A * A)) : Prop :=
  match l with
  | p :: ((q :: _) as l') => le (fst q) (snd p) = false /\ separated le l'
  | _ => True
  end.
