(* Vocabulary for the search of peaks. *)
From Verif Require Export CenterModel.
Local Open Scope Qc_scope.

(* the first of the greatest numbers *)
Definition first_greatest (l : list datum) (i : nat) (m : Qc) : Prop :=
  nth_error l i = Some (Some m) /\ (forall j v, nth_error l j = Some (Some v) -> v <= m) /\ (forall j v, (j < i)%nat -> nth_error l j = Some (Some v) -> v < m).
Definition no_number (l : list datum) : Prop := forall v, In v l -> v = None.
Definition high (l : list datum) (t : Qc) (i : nat) : Prop := exists v, nth_error l i = Some (Some v) /\ t < v.
(* the window reaches k to each side: all within it but the ends are high, and it cannot be extended *)
Definition reach (l : list datum) (t : Qc) (s k : nat) : Prop :=
  (k <= s)%nat /\ (s + k < length l)%nat /\ (forall j, (j < k)%nat -> high l t (s - j) /\ high l t (s + j))
  /\ (k = s \/ (s + k = length l - 1)%nat \/ ~ high l t (s - k) \/ ~ high l t (s + k)).
(* sums over the values from position a up to b, in coordinates of the data *)
Fixpoint mass (f : nat -> Qc) (l : list Qc) (i : nat) : Qc := match l with [] => 0 | v :: l' => f i * v + mass f l' (S i) end.
Definition one (_ : nat) : Qc := 1.
Definition numbers (l : list datum) (a b : nat) (w : list Qc) : Prop := map Some w = firstn (b - a) (skipn a l).

(* ---- two dimensions ---- *)
Fixpoint sumn (n : nat) (f : nat -> Qc) : Qc := match n with O => 0 | S n' => sumn n' f + f n' end.
(* sums over the square of half-width off around (y, x) *)
Definition square_sum (y x off : nat) (f : nat -> nat -> Qc) : Qc :=
  sumn (off + off + 1) (fun i => sumn (off + off + 1) (fun j => f (y - off + i)%nat (x - off + j)%nat)).
Definition inside (d : image) (y x off : nat) : Prop := (off <= y)%nat /\ (off <= x)%nat /\ (y + off < ny d)%nat /\ (x + off < nx d)%nat.
Definition low_in (d : image) (t : Qc) (y x off : nat) : Prop :=
  exists i j v, (y - off <= i <= y + off)%nat /\ (x - off <= j <= x + off)%nat /\ pix d i j = Some v /\ v < t.
Definition reach2 (d : image) (t : Qc) (y x off : nat) : Prop :=
  inside d y x off /\ (forall o, (o < off)%nat -> ~ low_in d t y x o) /\ (low_in d t y x off \/ ~ inside d y x (S off)).
