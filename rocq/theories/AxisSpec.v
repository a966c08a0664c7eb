(* What is claimed of axes, independent of how they are computed. *)
From Verif Require Import Base QcTac ZList AxisModel.
Local Open Scope Qc_scope.

(* n equidistant points from s with increment d *)
Definition progression (l : list Qc) (s d : Qc) (n : Z) : Prop :=
  Z.of_nat (length l) = n /\
  forall i, (0 <= i < n)%Z -> point l i = Some (s + Qc_of_Z i * d).

(* strictly increasing or strictly decreasing *)
Definition monotonic (l : list Qc) : Prop :=
  (forall i j x y, (i < j)%Z -> point l i = Some x -> point l j = Some y -> x < y) \/
  (forall i j x y, (i < j)%Z -> point l i = Some x -> point l j = Some y -> y < x).

(* position k of a list is nearest to v, and no earlier position is as near *)
Definition first_nearest (l : list Qc) (v : Qc) (k : Z) : Prop :=
  exists x, point l k = Some x /\
    (forall i y, point l i = Some y -> Qc_abs (x - v) <= Qc_abs (y - v)) /\
    (forall i y, (i < k)%Z -> point l i = Some y -> Qc_abs (x - v) < Qc_abs (y - v)).

(* total number of steps of the first segments *)
Fixpoint zsum (l : list Z) : Z :=
  match l with [] => 0 | x :: l' => (x + zsum l')%Z end.
Definition before (ns : list Z) (j : nat) : Z := zsum (firstn j ns).

(* w lies on the grid and covers v from the outside, less than one step away;
   d is the step pointing from the inside to the outside *)
Definition covers (w v d : Qc) : Prop :=
  0 <= (w - v) / d /\ (w - v) / d < 1.

(* The modifications of a regular axis that the classes implement, and what
   (start, end, number of points) or (start, step, number of points) they
   leave.  Documented is that a new start, end or step keeps the number of
   points; the code adds one point each time. *)
Definition regular_op (o : op) : Prop :=
  match o with
  | SetStart _ | SetEnd _ => True
  | SetSize n => (2 <= n)%Z
  | SetNsteps n => (1 <= n)%Z
  | SetStep _ => False
  end.
Definition regular_after (st : Qc * Qc * Z) (o : op) : Qc * Qc * Z :=
  let '(s, e, n) := st in
  match o with
  | SetStart v => (v, e, n + 1)%Z
  | SetEnd v => (s, v, n + 1)%Z
  | SetSize m => (s, e, m)
  | SetNsteps m => (s, e, m + 1)%Z
  | SetStep _ => (s, e, n)
  end.
Definition inc_op (o : op) : Prop :=
  match o with
  | SetStart _ | SetStep _ => True
  | SetSize n => (1 <= n)%Z
  | SetNsteps n => (0 <= n)%Z
  | SetEnd _ => False
  end.
Definition inc_after (st : Qc * Qc * Z) (o : op) : Qc * Qc * Z :=
  let '(s, d, n) := st in
  match o with
  | SetStart v => (v, d, n + 1)%Z
  | SetStep v => (s, v, n + 1)%Z
  | SetSize m => (s, d, m)
  | SetNsteps m => (s, d, m + 1)%Z
  | SetEnd _ => (s, d, n)
  end.

(* n >= 2 equidistant points from s with a step d that is not zero, in any of
   the representations of an axis that the code gives for such points *)
Definition regular_axis (a : axis) (s d : Qc) (n : Z) : Prop :=
  progression (a_values a) s d n /\ (2 <= n)%Z /\ d <> 0 /\
  match a_form a with
  | Plain => True
  | Regular s' e' d' n' | RegularInc s' e' d' n' =>
      s' = s /\ d' = d /\ n' = n /\ e' = s + Qc_of_Z (n - 1) * d
  | Number _ | Segments _ _ _ => False
  end.

Definition increasing (l : list Qc) : Prop :=
  forall i j x y, (i < j)%Z -> point l i = Some x -> point l j = Some y -> x < y.

(* two coordinates count as the same: both undefined, or within p *)
Definition same_point (p : Qc) (x y : option Qc) : Prop :=
  match x, y with
  | None, None => True
  | Some x, Some y => Qc_abs (x - y) <= p
  | _, _ => False
  end.
