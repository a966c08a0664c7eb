(* Vocabulary for the statements about utils/lut.py. *)
From Verif Require Export LutModel ListToolsSpec.
Local Open Scope Qc_scope.

Fixpoint sum (l : list Qc) : Qc :=
  match l with [] => 0 | a :: l' => a + sum l' end.

(* What a table should hold for x after a sequence of operations. *)
Definition spec_value (x : Qc) (ops : list lutop) : option Qc :=
  fold_left (fun old op =>
    match op with
    | LAdd xs ys =>
        match values_of Qc_eqb x (combine xs ys) with
        | [] => old
        | vs => Some (sum vs + match old with Some v => v | None => 0 end)
        end
    | LReplace xs ys =>
        match values_of Qc_eqb x (combine xs ys) with
        | [] => old
        | v :: _ => Some v
        end
    end) ops None.

Definition strictly_increasing (l : list Qc) : Prop := StronglySorted Qclt l.

Definition equal_lengths (op : lutop) : Prop :=
  match op with LAdd x y | LReplace x y => length x = length y end.

(* The (x, y) points a table holds. *)
Definition points (t : lut) : list (Qc * Qc) :=
  match lxy t with Some (x, y) => combine x y | None => [] end.
