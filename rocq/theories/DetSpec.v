(* Vocabulary for the attenuators of a detector. *)
From Coq Require Import String.
From Verif Require Export DetModel.

(* upper or lower case *)
Definition same_letter (c d : ascii) : Prop := c = d \/ (nat_of_ascii c + 32 = nat_of_ascii d /\ 65 <= nat_of_ascii c <= 90)%nat.
(* "beamfilter" in any case, and a number *)
Definition beam_name (name : chars) (q : chars) : Prop :=
  exists p, name = p ++ q /\ Forall2 same_letter p (txt "beamfilter") /\ q <> [] /\ Forall (fun c => digit c = true) q.
Definition is_beam (name : chars) : Prop := exists q, beam_name name q.
(* a dictionary lists each name once *)
Definition good {A} (d : det A) : Prop := NoDup (keys (own d)).
Definition has {A} (d : det A) (name : chars) (a : A) : Prop := In (name, a) (attenuators d).
Definition known {A} (d : det A) (name : chars) : Prop := In name (keys (attenuators d)).
(* the attenuators whose name has a property, in order *)
Inductive select {A} (P : chars -> Prop) : list (chars * A) -> list A -> Prop :=
| select_nil : select P [] []
| select_in n a l r : P n -> select P l r -> select P ((n, a) :: l) (a :: r)
| select_out n a l r : ~ P n -> select P l r -> select P ((n, a) :: l) r.
