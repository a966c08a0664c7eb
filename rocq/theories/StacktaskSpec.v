(* Predicates used in the statements about merging and stacking tasks *)
From Verif Require Import StacktaskModel.
Local Open Scope list_scope.

(* the values with a given name, in order *)
Definition named {D} (name : string) (l : list (string * D)) : list D := map snd (filter (fun x => String.eqb name (fst x)) l).
(* int() of two texts, used in the examples *)
Definition int_case (s : string) : option Z := if String.eqb s "5" then Some 5%Z else if String.eqb s "7" then Some 7%Z else None.
