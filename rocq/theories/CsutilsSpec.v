(* Predicates for tables of cross sections *)
From Verif Require Export CsutilsModel.
Local Open Scope list_scope.
Local Open Scope nat_scope.

Fixpoint product (l : list nat) : nat := match l with [] => 1 | n :: l' => n * product l' end.
(* an array has as many values as its shape says *)
Definition wf {X} (a : arg X) : Prop := match a with Number _ => True | Array s d => List.length d = product s end.
(* the elements of an argument, a number is its only element *)
Definition element {X} (a : arg X) (k : nat) : option X :=
  match a with Number x => if k =? 0 then Some x else None | Array _ d => nth_error d k end.
Definition size {X} (a : arg X) : nat := match a with Number _ => 1 | Array s _ => product s end.
(* the function for all values at once agrees with the function for one, zero for errors *)
Definition agrees {Z E R} (zero : R) (cs : Z -> E -> option R) (np : option (list Z -> list E -> option (list (list R)))) : Prop :=
  forall f zs es r, np = Some f -> f zs es = Some r -> r = map (fun z => map (fun e => match cs z e with Some x => x | None => zero end) es) zs.
