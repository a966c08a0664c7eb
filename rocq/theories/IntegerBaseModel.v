(* Model of src/spectrocrunch/utils/integerbase.py *)
From Verif Require Export Base.

Section IntegerBase.
(* Symbols (characters), the digit list [digs] and the "-" character. *)
Context {A : Type} (eqb : A -> A -> bool) (minus : A) (digs : list A).

(* utils/integerbase.py:24 *)
Definition base : Z := Z.of_nat (length digs).

(* utils/integerbase.py:35-37 the while loop, least significant digit first, for
   at most [fuel] iterations.  None: still running after that many. *)
Fixpoint digit_loop (fuel : nat) (x : Z) : option (result (list A)) :=
  if x =? 0 then Some (Ok [])
  else match fuel with
  | O => None
  | S fuel' =>
      if base =? 0 then Some (Err ZeroDivisionError)
      else match py_get digs (x mod base) with
      | Err e => Some (Err e)
      | Ok d => match digit_loop fuel' (x / base) with
                | Some (Ok ds) => Some (Ok (d :: ds))
                | r => r
                end
      end
  end.

(* utils/integerbase.py:26-41 int2base; the result string as its characters *)
Definition int2base (fuel : nat) (x : Z) : option (result (list A)) :=
  if x =? 0 then Some (let! d := py_get digs 0 in Ok [d])
  else match digit_loop fuel (Z.abs x) with
  | Some (Ok ds) => Some (Ok (rev (if x <? 0 then ds ++ [minus] else ds)))
  | r => r
  end.

(* list.index *)
Fixpoint index_of (l : list A) (a : A) : result nat :=
  match l with
  | [] => Err ValueError
  | b :: l' => if eqb b a then Ok O else let! k := index_of l' a in Ok (S k)
  end.

(* utils/integerbase.py:43-48 base2int: the loop over the reversed string *)
Fixpoint value_loop (i : nat) (val : Z) (y : list A) : result Z :=
  match y with
  | [] => Ok val
  | c :: y' =>
      let! k := index_of digs c in
      value_loop (S i) (val + Z.of_nat k * base ^ Z.of_nat i) y'
  end.
Definition base2int (s : list A) : result Z := value_loop 0 0 (rev s).
End IntegerBase.
