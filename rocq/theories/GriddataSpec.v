(* Predicates for the signals of results by group *)
From Verif Require Export GriddataModel.
Local Open Scope list_scope.
Local Open Scope nat_scope.

(* the plots that are not links *)
Definition own {A S} (l : list (plot A S)) : list (plot A S) := filter (fun p => negb (p_link p)) l.
(* the group of a plot *)
Definition named {A S} (p : plot A S) (g : grp) : Prop := make (GStr (p_name p)) = Ok g.
Fixpoint first_some {X} (l : list (option X)) : option X :=
  match l with [] => None | Some x :: _ => Some x | None :: l' => first_some l' end.
Definition same_axes {A} (eqb : A -> A -> bool) (a b : list A) : Prop := Forall2 (fun x y => eqb x y = true) a b.
