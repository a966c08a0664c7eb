(* What the theorems about scenes refer to. *)
From Verif Require Export SceneModel.
Local Open Scope Qc_scope.

(* the coordinates of an item along a data axis *)
Definition coordinates (k : bool) (it : item) (x : Qc) : Prop :=
  match it with
  | Image l0 l1 _ _ => x = fst (if k then l1 else l0) \/ x = snd (if k then l1 else l0)
  | Scatter c0 c1 => x = fst (if k then c1 else c0) \/ In x (snd (if k then c1 else c0))
  end.
Definition coordinate (sc : scene) (k : bool) (x : Qc) : Prop := exists it, In it (items sc) /\ coordinates k it x.
(* [lo] and [hi] are the lowest and highest element of [P] *)
Definition extremes (P : Qc -> Prop) (lo hi : Qc) : Prop := P lo /\ P hi /\ forall x, P x -> lo <= x /\ x <= hi.
(* coordinate [x] is displayed at fraction [u] of the axis *)
Definition shown_at (sc : scene) (k : bool) (x u : Qc) : Prop :=
  exists lo hi, displaylim sc k = Ok (lo, hi) /\ (x * scaling (get_axis sc k) - offset (get_axis sc k)) - lo = u * (hi - lo).
(* images have at least two pixels along the axis *)
Definition wide (k : bool) (it : item) : Prop := match it with Image _ _ n0 n1 => (2 <= (if k then n1 else n0))%nat | Scatter _ _ => True end.
