From Verif Require Import ScalarModel.
From Coq Require Export Permutation Sorted.
Local Open Scope Qc_scope.

Definition byte (v : Z) : Prop := (0 <= v <= 255)%Z.
(* the middle value of the sorted data, or the mean of the two middle values *)
Definition is_median (l : list Qc) (m : Qc) : Prop :=
  exists u, Permutation l u /\ StronglySorted Qcle u /\
    ((exists k, length l = S (k + k) /\ nth_error u k = Some m) \/
     (exists k a b, length l = (S k + S k)%nat /\ nth_error u k = Some a /\ nth_error u (S k) = Some b /\ m + m = a + b)).
Definition count (p : Qc -> bool) (l : list Qc) : nat := length (filter p l).
(* a function that sorts *)
Definition sorts (f : list Qc -> list nat) : Prop :=
  forall l, Permutation (f l) (seq 0 (length l)) /\
            StronglySorted (fun i j => nth i l 0 <= nth j l 0) (f l).
Definition multiple_of (u x : Qc) : Prop := exists k : Z, x = Qc_of_Z k * u.
Definition between (a x b : Qc) : Prop := a <= x /\ x <= b.
(* 10 to the power e, as a fraction of integers *)
Definition ten (e : Z) (x : Qc) : Prop :=
  ((0 <= e)%Z /\ x = Qc_of_Z (10 ^ e)) \/ ((e < 0)%Z /\ x * Qc_of_Z (10 ^ (- e)) = 1).
(* the unit of the last of sig significant digits of x *)
Definition significant (x : Qc) (sig : Z) (v : Qc) : Prop :=
  exists e t, ten e t /\ t <= Qc_abs x /\ Qc_abs x < t * Qc_of_Z 10 /\ ten (e + 1 - sig) v.
Definition zeros (l : list Z) : nat := length (filter (fun i => (i =? 0)%Z) l).
Fixpoint sum (l : list Qc) : Qc := match l with [] => 0 | v :: l' => v + sum l' end.
Fixpoint dot (l ws : list Qc) : Qc :=
  match l, ws with v :: l', w :: ws' => v * w + dot l' ws' | _, _ => 0 end.
(* a sort that only looks at comparisons *)
Definition comparing (f : list Qc -> list nat) : Prop :=
  forall l l', length l = length l' ->
    (forall i j, (i < length l)%nat -> (j < length l)%nat -> (nth i l 0 <= nth j l 0 <-> nth i l' 0 <= nth j l' 0)) -> f l = f l'.
(* one such sort *)
Fixpoint place (l : list Qc) (i : nat) (u : list nat) : list nat :=
  match u with
  | [] => [i]
  | j :: u' => if Qc_leb (nth i l 0) (nth j l 0) then i :: u else j :: place l i u'
  end.
Definition stable_argsort (l : list Qc) : list nat := fold_right (place l) [] (seq 0 (length l)).
Definition affine (a b v : Qc) : Qc := a * v + b.
Definition factor (normal : bool) : Qc := if normal then Q2Qc (14826 # 10000) else 1.
Definition flagged (l : list bool) : nat := length (filter (fun b => b) l).
Definition taken (k : Z) (n : nat) : nat :=
  if (k <? 0)%Z then Z.to_nat (Z.of_nat n + k) else Nat.min (Z.to_nat k) n.
