From Verif Require Import GridSpec MergeModel.
Local Open Scope nat_scope.

(* a common size that every shape can be cut to at its last dimension *)
Definition common_size (shapes : list (list nat)) (S : nat) : Prop :=
  Forall (fun s => exists n, n <= last s 0 /\ S = prod (removelast s) * n) shapes.
(* an empty result stands for the shape itself *)
Definition resolved (s new : list nat) : list nat := match new with [] => s | _ => new end.
(* boxes *)
Definition fit_box (b : box) (sh : list nat) : Prop := Forall2 (fun p n => fst p + snd p <= n) b sh.
Definition in_range (idx : list nat) (b : box) : Prop := Forall2 (fun i p => fst p <= i < fst p + snd p) idx b.
(* the number of a point of a scan whose fastest dimension comes first *)
Fixpoint point (sm c : list nat) : nat :=
  match sm, c with
  | n :: sm', i :: c' => i + n * point sm' c'
  | _, _ => 0
  end.
(* the points in complete lines of a scan of n points *)
Definition full_lines (sm : list nat) (n : nat) : nat := Nat.min n (prod sm) / prod (removelast sm) * prod (removelast sm).
(* row by row: there is only one row *)
Definition one_row (sh : list nat) : Prop := sh <> [] /\ prod (removelast sh) = 1.
(* the part of the scan with complete lines *)
Definition line_shape (sm : list nat) (n : nat) : list nat := removelast sm ++ [Nat.min n (prod sm) / prod (removelast sm)].
(* a source that fills a scan, or a single row with at least one complete line of it *)
Definition usable (sh sm : list nat) : Prop := prod sh = prod sm \/ (one_row sh /\ 0 < full_lines sm (prod sh)).
(* for tiles it may not have more points than the scan *)
Definition usable_tile (sh sm : list nat) : Prop := sh <> [] /\ 0 < prod sh <= prod sm /\ usable sh sm.
