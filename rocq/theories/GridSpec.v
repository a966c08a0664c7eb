From Verif Require Import GridModel.
Local Open Scope nat_scope.

(* an index of an array of shape sh *)
Definition inside (sh idx : list nat) : Prop := Forall2 lt idx sh.
(* the same array *)
Definition same {A} (a b : arr A) : Prop := shape a = shape b /\ forall i, inside (shape a) i -> at_ a i = at_ b i.
(* dimension d (which may count from the end) is dimension k *)
Definition dimension (n : nat) (d : Z) (k : nat) : Prop := k < n /\ (d = Z.of_nat k \/ d = (Z.of_nat k - Z.of_nat n)%Z).
(* a pixel is valid when nothing in the stack is marked *)
Definition valid (m : marker) (g : arr cell) (k : nat) (j : list nat) : Prop :=
  forall i, i < nth k (shape g) 0 -> marked m (at_ g (ins k i j)) = false.
(* lines of the mask *)
Definition on_line (d p : nat) (j : list nat) : Prop := nth d j 0 = p.
Definition nonempty_line (mk : arr bool) (d p : nat) : Prop :=
  exists j, inside (shape mk) j /\ on_line d p j /\ at_ mk j = true.
Definition line_size (mk : arr bool) (d p : nat) : nat :=
  length (filter (fun j => Nat.eqb (nth d j 0) p && at_ mk j) (indices (shape mk))).
Definition fullest_line (mk : arr bool) (d p : nat) : Prop :=
  nonempty_line mk d p /\ forall q, q < nth d (shape mk) 0 -> line_size mk d q <= line_size mk d p.
Definition chosen (nanfull : bool) (mk : arr bool) (d p : nat) : Prop :=
  p < nth d (shape mk) 0 /\ if nanfull then fullest_line mk d p else nonempty_line mk d p.
(* the smallest range with everything chosen *)
Definition hull (P : nat -> Prop) (ab : Z * Z) : Prop :=
  exists i j, ab = (Z.of_nat i, Z.of_nat j + 1)%Z /\ P i /\ P j /\ forall p, P p -> i <= p <= j.
Definition within (sh : list nat) (roi : list (Z * Z)) : Prop :=
  Forall2 (fun ab n => (0 <= fst ab)%Z /\ (fst ab <= snd ab)%Z /\ (snd ab <= Z.of_nat n)%Z) roi sh.
Definition roi_shape (roi : list (Z * Z)) : list nat := map (fun ab => Z.to_nat (snd ab - fst ab)) roi.
Fixpoint shift (roi : list (Z * Z)) (idx : list nat) : list nat :=
  match roi, idx with
  | (a, _) :: roi', i :: idx' => Z.to_nat a + i :: shift roi' idx'
  | _, _ => []
  end.
