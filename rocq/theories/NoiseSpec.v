(* Vocabulary for the statements about noise propagation: finite probability distributions. *)
From Verif Require Export NoiseModel.
Local Open Scope Qc_scope.

Definition dist : Type := list (Qc * Qc).      (* values with their probabilities *)
Fixpoint total (f : Qc -> Qc) (d : dist) : Qc := match d with [] => 0 | (x, w) :: d' => f x * w + total f d' end.
Definition proper (d : dist) : Prop := Forall (fun e => 0 <= snd e) d /\ total (fun _ => 1) d = 1.
Definition mean (d : dist) : Qc := total (fun x => x) d.
Definition variance (d : dist) : Qc := total (fun x => (x - mean d) * (x - mean d)) d.
Definition moments (d : dist) : rv := (mean d, variance d).
(* independent variables: every pair of values, with the product of their probabilities *)
Definition combine (f : Qc -> Qc -> Qc) (a b : dist) : dist := flat_map (fun x => map (fun y => (f (fst x) (fst y), snd x * snd y)) b) a.
Definition sum : dist -> dist -> dist := combine Qcplus.
Fixpoint sum_of (n : nat) (X : dist) : dist := match n with O => [(0, 1)] | S n' => sum X (sum_of n' X) end.
(* a number of terms that is itself random *)
Definition counts : Type := list (nat * Qc).
Definition numbers (N : counts) : dist := map (fun e => (Qc_of_Z (Z.of_nat (fst e)), snd e)) N.
Definition random_sum (N : counts) (X : dist) : dist := flat_map (fun e => map (fun y => (fst y, snd e * snd y)) (sum_of (fst e) X)) N.
Definition bernouilli_dist (p : Qc) : dist := [(1, p); (0, 1 - p)].
(* what is transmitted, all steps together *)
Definition factor (s : setup) (samplein : bool) : Qc :=
  (if samplein then match sample s with Some p => p | None => 1 end else 1) * (absorbed s * gain s) * (lens_transmission s * lightyield s).
Definition proper_camera (c : camera) : Prop := 0 < etoDU c /\ 0 < qe c /\ 0 <= darkcurrent c.
Definition probability (p : Qc) : Prop := 0 < p /\ p <= 1.
Definition proper_setup (s : setup) : Prop :=
  (forall p, sample s = Some p -> probability p) /\ probability (absorbed s) /\ 0 < gain s /\ probability (lens_transmission s) /\ 0 < lightyield s /\ proper_camera (cam s).
Definition value (N : num) : Qc := match N with Plain x => x | Noisy X => E X end.

Definition sound (N : num) : Prop := match N with Plain x => 0 <= x | Noisy X => 0 <= E X /\ 0 <= VAR X end.
Definition kind (N : num) : bool := match N with Plain _ => false | Noisy _ => true end.
Definition within (x y e : Qc) : Prop := y - e <= x /\ x <= y + e.
