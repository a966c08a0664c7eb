(* Vocabulary for the statements about default plots *)
From Verif Require Import DefaultplotModel.

(* the group has this signal *)
Definition has_signal (d : nxdata) (n : chars) : Prop := x_signal d = Some n \/ exists l, x_aux d = Some l /\ In n l.
(* a group that is not an entry, a plot or the root; it may have no class *)
Definition plain (g : group) : Prop := snd g = None \/ snd g = Some NXother.
