(* Vocabulary for the statements about utils/integerbase.py. *)
From Verif Require Export IntegerBaseModel.

(* s (most significant symbol first) is a positional notation of v: symbol number
   k of the alphabet stands for k. *)
Definition denotes {A} (digs : list A) (s : list A) (v : Z) : Prop :=
  exists ks : list nat,
    Forall2 (fun c k => nth_error digs k = Some c) s ks /\
    v = fold_left (fun v k => v * Z.of_nat (length digs) + Z.of_nat k) ks 0.

(* No superfluous leading zero, at least one symbol. *)
Definition canonical {A} (digs : list A) (s : list A) : Prop :=
  match s with
  | [] => False
  | [_] => True
  | c :: _ => nth_error digs 0 <> Some c
  end.
