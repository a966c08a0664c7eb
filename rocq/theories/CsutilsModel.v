(* Model of src/spectrocrunch/materials/csutils.py (eval): tables of cross sections of elements and energies.
   An array is its shape and its values in C order; atomic numbers, energies and values are of any type; units, data frames and applypost=False are left out (lines 20-21, 69-70 and 75). *)
From Verif Require Export Base.
Local Open Scope list_scope.
Local Open Scope nat_scope.

Inductive arg (X : Type) : Type := Number (x : X) | Array (shape : list nat) (data : list X).
Arguments Number {X}. Arguments Array {X}.
Section Eval.
(* cs: None is a ValueError of xraylib; np: the function of xraylib_np for all values at once, when it is there, None is a ValueError *)
Context {Z E R : Type} (zero : R) (cs : Z -> E -> option R) (np : option (list Z -> list E -> option (list (list R)))).
(* 18-19 *)
Definition isarray {X} (a : arg X) : bool := match a with Number _ => false | Array _ _ => true end.
(* isarraynot0 and shape, an array without dimensions has the empty shape: 23-35 *)
Definition shape_of {X} (a : arg X) : list nat := match a with Number _ => [] | Array s _ => s end.
(* atleast_1d and flatten: 25-26, 40-41 *)
Definition flatten {X} (a : arg X) : list X := match a with Number x => [x] | Array _ d => d end.
(* 55-58 and 61-64: zero for a ValueError *)
Definition value (z : Z) (e : E) : R := match cs z e with Some r => r | None => zero end.
(* 50-58 *)
Definition loop (zs : list Z) (es : list E) : list (list R) := map (fun z => map (value z) es) zs.
(* 42-58 *)
Definition table (zs : list Z) (es : list E) : list (list R) :=
  match np with
  | Some f => match f zs es with Some r => r | None => loop zs es end
  | None => loop zs es
  end.
(* csutils.py:7-75 with applypost=True; reshape of a table of np with another size would be an error, it is not modelled *)
Definition eval (z : arg Z) (e : arg E) : arg R :=
  match z, e with
  | Number z, Number e => Number (value z e)
  | _, _ => Array (shape_of z ++ shape_of e) (List.concat (table (flatten z) (flatten e)))
  end.
End Eval.
