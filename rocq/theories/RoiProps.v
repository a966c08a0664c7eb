(* C12, C13: regions of interest (utils/roi.py). *)
From Verif Require Import Base RoiModel RoiSpec RoiProofs.

(* C12 *)
Theorem C12_clip_inside :
  forall shape roi out,
  Forall (fun n => 0 <= n) shape -> cliproi shape roi = Ok out ->
  Forall2 (fun n p => 0 <= fst p <= Z.max 0 (n - 1) /\ 0 <= snd p <= n) shape out.
Proof. exact cliproi_inside. Qed.
Print Assumptions C12_clip_inside.

Example C12_clip_ex :
  cliproi [10; 4] [(Some (-3), None); (Some (-9), Some 99)] = Ok [(7, 10); (0, 4)].
Proof. reflexivity. Qed.

(* Each limit is clipped on its own; limits already inside do not change. *)
Theorem C12_clip_pointwise :
  forall shape roi, length shape = length roi ->
  exists out, cliproi shape roi = Ok out /\ length out = length shape /\
  forall i n a b, nth_error shape i = Some n -> nth_error roi i = Some (a, b) ->
    nth_error out i = Some (clip_low n a, clip_high n b).
Proof. exact cliproi_ok. Qed.
Print Assumptions C12_clip_pointwise.

Theorem C12_inside_unchanged :
  forall n a b, 0 <= a < n -> 0 <= b <= n ->
  clip_low n (Some a) = a /\ clip_high n (Some b) = b.
Proof. exact clip_identity. Qed.
Print Assumptions C12_inside_unchanged.

Example C12_inside_unchanged_ex : clip_low 5 (Some 4) = 4 /\ clip_high 5 (Some 5) = 5.
Proof. split; reflexivity. Qed.

Theorem C12_clip_idempotent :
  forall shape roi out,
  Forall (fun n => 0 <= n) shape -> cliproi shape roi = Ok out ->
  cliproi shape (map (fun p => (Some (fst p), Some (snd p))) out) = Ok out.
Proof. exact cliproi_idempotent. Qed.
Print Assumptions C12_clip_idempotent.

Theorem C12_dimension_error :
  forall shape roi e,
  cliproi shape roi = Err e <-> e = ValueError /\ length shape <> length roi.
Proof. exact cliproi_err. Qed.
Print Assumptions C12_dimension_error.

Example C12_dimension_error_ex : cliproi [3] [] = Err ValueError.
Proof. reflexivity. Qed.

(* The clipped limits select what Python slicing with the given limits selects,
   provided the lower limit is below the array length. *)
Theorem C12_selects_like_slice_partial :
  forall A (l : list A) a b,
  match a with Some a => a < Z.of_nat (length l) | None => True end ->
  let n := Z.of_nat (length l) in
  py_slice l (Some (clip_low n a)) (Some (clip_high n b)) = py_slice l a b.
Proof. exact @clip_selects. Qed.
Print Assumptions C12_selects_like_slice_partial.

Example C12_selects_ex :
  py_slice [10; 20; 30] (Some (clip_low 3 (Some (-2)))) (Some (clip_high 3 None)) = [20; 30].
Proof. reflexivity. Qed.

(* When the region lies beyond the end the slice is empty, but the clipped region
   holds the last element. *)
Theorem C12_region_beyond_end_refuted :
  forall A (l : list A) (d : A) a b,
  l <> [] -> Z.of_nat (length l) <= a ->
  match b with Some b => Z.of_nat (length l) <= b | None => True end ->
  let n := Z.of_nat (length l) in
  py_slice l (Some a) b = [] /\
  py_slice l (Some (clip_low n (Some a))) (Some (clip_high n b)) = [last l d].
Proof. exact @clip_beyond. Qed.
Print Assumptions C12_region_beyond_end_refuted.

Example C12_region_beyond_ex :
  py_slice [10; 20; 30] (Some 7) None = [] /\
  py_slice [10; 20; 30] (Some (clip_low 3 (Some 7))) (Some (clip_high 3 None)) = [30].
Proof. split; reflexivity. Qed.

(* C13 *)
Theorem C13_merge_same_points :
  forall A (le : A -> A -> bool), total_order le -> forall ivs x,
  (exists p, In p (mergeroi1d le ivs) /\ in_closed le x p) <-> (exists p, In p ivs /\ in_closed le x p).
Proof. exact @mergeroi_closed. Qed.
Print Assumptions C13_merge_same_points.

Theorem C13_merge_same_half_open_points :
  forall A (le : A -> A -> bool), total_order le -> forall ivs x,
  (exists p, In p (mergeroi1d le ivs) /\ in_half_open le x p) <->
  (exists p, In p ivs /\ in_half_open le x p).
Proof. exact @mergeroi_half_open. Qed.
Print Assumptions C13_merge_same_half_open_points.

Theorem C13_merge_sorted_disjoint :
  forall A (le : A -> A -> bool), total_order le -> forall ivs,
  separated le (mergeroi1d le ivs) /\
  StronglySorted (fun p q => le (fst p) (fst q) = true) (mergeroi1d le ivs).
Proof. exact @mergeroi_shape. Qed.
Print Assumptions C13_merge_sorted_disjoint.

Theorem C13_merge_idempotent :
  forall A (le : A -> A -> bool), total_order le -> forall ivs,
  mergeroi1d le (mergeroi1d le ivs) = mergeroi1d le ivs.
Proof. exact @mergeroi_idempotent. Qed.
Print Assumptions C13_merge_idempotent.

(* No new limits are invented. *)
Theorem C13_merge_limits_from_input :
  forall A (le : A -> A -> bool) ivs p, In p (mergeroi1d le ivs) ->
  (exists q, In q ivs /\ fst q = fst p) /\ (exists q, In q ivs /\ snd q = snd p).
Proof. exact @merge_in_ends. Qed.
Print Assumptions C13_merge_limits_from_input.

Example C13_merge_ex :
  total_order Z.leb /\
  mergeroi1d Z.leb [(8, 9); (1, 3); (3, 4); (2, 6); (0, 1)] = [(0, 6); (8, 9)].
Proof. split; [|reflexivity]. repeat split; intros; lia. Qed.
