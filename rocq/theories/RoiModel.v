(* Model of src/spectrocrunch/utils/roi.py *)
From Verif Require Export Base ListToolsModel.

(* utils/roi.py:20-32 the loop body of cliproi *)
Definition clip_low (n : Z) (a : option Z) : Z :=
  match a with
  | None => 0
  | Some a => let a := if a <? 0 then a + n else a in Z.max 0 (Z.min a (n - 1))
  end.
Definition clip_high (n : Z) (b : option Z) : Z :=
  match b with
  | None => n
  | Some b => let b := if b <? 0 then b + n else b in Z.max 0 (Z.min b n)
  end.

(* utils/roi.py:4-36 cliproi *)
Definition cliproi (shape : list Z) (roi : list (option Z * option Z)) : result (list (Z * Z)) :=
  if Nat.eqb (length shape) (length roi) then
    Ok (map (fun p => (clip_low (fst p) (fst (snd p)), clip_high (fst p) (snd (snd p))))
            (combine shape roi))
  else Err ValueError.

(* utils/roi.py:39-59 mergeroi1d on numbers ordered by [le]; the generator as the
   list it yields *)
Section Merge.
Context {A : Type} (le : A -> A -> bool).
(* Python's max(a, b) *)
Definition py_max (a b : A) : A := if le b a then a else b.

Fixpoint merge_loop (low high : A) (ivs : list (A * A)) : list (A * A) :=
  match ivs with
  | [] => [(low, high)]
  | iv :: ivs' =>
      if le (fst iv) high then merge_loop low (py_max high (snd iv)) ivs'
      else (low, high) :: merge_loop (fst iv) (snd iv) ivs'
  end.
Definition mergeroi1d (intervals : list (A * A)) : list (A * A) :=
  match sorted (fun p q => le (fst p) (fst q)) intervals with
  | [] => []
  | (low, high) :: ivs => merge_loop low high ivs
  end.
End Merge.
