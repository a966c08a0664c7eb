(* Model of src/spectrocrunch/process/nxresult.py 79-126 (regulargriddata): the signals of a result by group.
   Axes and signals are of any type, axes with their comparison; files are left out. *)
From Verif Require Export Base GroupModel.
Local Open Scope list_scope.
Local Open Scope nat_scope.

Section Grid.
Context {A S : Type} (axis_eqb : A -> A -> bool).
(* an NXdata group *)
Record plot := mkPlot { p_link : bool; p_name : chars; p_stackdim : option nat; p_axes : list A; p_signals : list S }.
Inductive source := SData (p : plot) | SProcess (known : bool) (stackdim : option nat) (l : list plot) | SOther.
(* axes == axs *)
Fixpoint axes_eqb (a b : list A) : bool :=
  match a, b with
  | [], [] => true
  | x :: a', y :: b' => axis_eqb x y && axes_eqb a' b'
  | _, _ => false
  end.
Definition grid : Type := list (grp * list S) * list A * option nat.
(* 107-124 *)
Fixpoint collect (l : list plot) (groups : list (grp * list S)) (axes : list A) (stackdim : option nat) : result grid :=
  match l with
  | [] => Ok (groups, axes, stackdim)
  | p :: l' =>
    if p_link p then collect l' groups axes stackdim
    else
      let stackdim := match stackdim with None => p_stackdim p | Some _ => stackdim end in
      let! group := make (GStr (p_name p)) in
      if existsb (fun gs => eq_op group (OGrp (fst gs))) groups then Err RuntimeError
      else
        let groups := groups ++ [(group, p_signals p)] in
        match axes with
        | [] => collect l' groups (p_axes p) stackdim
        | _ => if axes_eqb axes (p_axes p) then collect l' groups axes stackdim else Err RuntimeError
        end
  end.
(* 89-105 *)
Definition regulargriddata (x : source) : result grid :=
  match x with
  | SData p => collect [p] [] [] None
  | SProcess known stackdim l => if known then collect l [] [] stackdim else Err ValueError
  | SOther => Err ValueError
  end.
End Grid.
Arguments plot : clear implicits.
Arguments source : clear implicits.
