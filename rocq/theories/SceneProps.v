(* C111: axes of a scene (visualization/scene.py, process/scenevis.py:scene_modifyaxes) *)
From Verif Require Import SceneModel SceneSpec SceneProofs.
Local Open Scope list_scope.
Local Open Scope Qc_scope.

(* The axes displayed as x and y are different; transposing exchanges them; x is data axis 1 when not transposed. *)
Theorem C111_axes : forall sc, dataaxisx sc = negb (dataaxisy sc) /\ dataaxisx (transpose sc (negb (transposed sc))) = dataaxisy sc /\
  dataaxisy (transpose sc (negb (transposed sc))) = dataaxisx sc /\ dataaxisx (transpose sc false) = true.
Proof. exact axes. Qed.
Print Assumptions C111_axes.

(* An example: an image of 5 by 3 pixels and two points, the first axis scaled and moved *)
Definition example : scene :=
  {| axis0 := {| offset := Qc_of_Z 1; scaling := Qc_of_Z 2; increasing := true |}; axis1 := new_axis; transposed := false;
     items := [Image (Qc_of_Z 0, Qc_of_Z 4) (Qc_of_Z 10, Qc_of_Z 12) 5 3; Scatter (Qc_of_Z 1, [Qc_of_Z 6]) (Qc_of_Z 11, [Qc_of_Z 9])];
     unit0 := "mm"%string; unit1 := "um"%string; aspect := None |}.
Example example_extremes : extremes (coordinate example false) (Qc_of_Z 0) (Qc_of_Z 6).
Proof.
  split; [|split].
  - eexists. split; [left; reflexivity|]. left. reflexivity.
  - eexists. split; [right; left; reflexivity|]. right. left. reflexivity.
  - intros x (it & [<- | [<- | []]] & [-> | H]); cbn in *; try (split; vm_compute; discriminate).
    + subst x. split; vm_compute; discriminate.
    + destruct H as [<- | []]. split; vm_compute; discriminate.
Qed.

(* A new range: the lowest coordinate gets the first value, the highest the second and those in between are interpolated,
   whatever the range was; the other axis keeps its own. *)
Theorem C111_range : forall sc k a b lo hi, extremes (coordinate sc k) lo hi -> lo < hi -> exists sc', setdatarange sc k (a, b) = Ok sc' /\
  datarange sc' k = Ok (if Qc_leb a b then (a, b) else (b, a)) /\ get_axis sc' (negb k) = get_axis sc (negb k) /\ items sc' = items sc /\
  forall x, x * scaling (get_axis sc' k) - offset (get_axis sc' k) = a + (x - lo) / (hi - lo) * (b - a).
Proof. exact range_set. Qed.
Print Assumptions C111_range.
(* There is no such range when all coordinates are the same. *)
Theorem C111_range_degenerate : forall sc k a b x, coordinate sc k x -> (forall y, coordinate sc k y -> y = x) -> setdatarange sc k (a, b) = Err not_finite.
Proof. exact range_set_degenerate. Qed.
Print Assumptions C111_range_degenerate.
Example one_point : coordinate (new_scene "" "" [Scatter (1, []) (1, [])]) true 1 /\ forall y, coordinate (new_scene "" "" [Scatter (1, []) (1, [])]) true y -> y = 1.
Proof. split; [eexists; split; [left; reflexivity|left; reflexivity]|]. intros y (it & [<- | []] & [H|[]]). exact H. Qed.

(* Flipping an axis that is not mirrored mirrors the display: what was at a fraction of the axis is at one minus it. *)
Theorem C111_flip : forall sc k inc sc' x u, 0 < scaling (get_axis sc k) -> flipaxis sc k inc = Ok sc' -> shown_at sc k x u -> shown_at sc' k x (1 - u).
Proof. exact flip. Qed.
Print Assumptions C111_flip.
(* So does flipping without asking for the order the axis already has. *)
Theorem C111_flip_order : forall sc k inc sc' x u, inc <> Some (increasing (get_axis sc k)) -> flipaxis sc k inc = Ok sc' -> shown_at sc k x u -> shown_at sc' k x (1 - u).
Proof. exact flip_toggle. Qed.
Print Assumptions C111_flip_order.
(* Afterwards the axis has the order asked for, the opposite one by default; the other axis is as before. *)
Theorem C111_flip_increasing : forall sc k inc sc', flipaxis sc k inc = Ok sc' -> items sc' = items sc /\ get_axis sc' (negb k) = get_axis sc (negb k) /\ transposed sc' = transposed sc /\
  increasing (get_axis sc' k) = match inc with Some b => b | None => negb (increasing (get_axis sc k)) end.
Proof. exact flip_frame. Qed.
Print Assumptions C111_flip_increasing.
Example flip_example : exists sc', flipaxis example false (Some true) = Ok sc' /\ 0 < scaling (get_axis example false) /\ exists u, shown_at example false (Qc_of_Z 6) u.
Proof.
  eexists. split; [reflexivity|]. split; [reflexivity|]. exists 1. eexists. eexists. split; [reflexivity|]. apply Qc_is_canon. vm_compute. reflexivity.
Qed.
(* Flipping is not undone by flipping again: an axis mirrored by the flip that keeps its order stays mirrored. *)
Theorem C111_flip_twice_refuted : forall sc k sc1, 0 < scaling (get_axis sc k) -> flipaxis sc k (Some (increasing (get_axis sc k))) = Ok sc1 ->
  sc1 <> sc /\ flipaxis sc1 k (Some (increasing (get_axis sc k))) = Ok sc1.
Proof. exact flip_twice. Qed.
Print Assumptions C111_flip_twice_refuted.
Theorem C111_flip_mirrored_refuted : forall sc k, scaling (get_axis sc k) < 0 -> (exists x y, coordinate sc k x /\ coordinate sc k y /\ x <> y) ->
  flipaxis sc k (Some (increasing (get_axis sc k))) = Ok sc.
Proof. exact flip_mirrored. Qed.
Print Assumptions C111_flip_mirrored_refuted.
Example mirrored_example : exists sc', flipaxis example false (Some true) = Ok sc' /\ scaling (get_axis sc' false) < 0.
Proof. eexists. split; reflexivity. Qed.

(* The origin at the lowest coordinate: the lowest coordinate is displayed at twice the offset the axis had ... *)
Theorem C111_originzero : forall sc sc', originzero sc = Ok sc' -> forall k, exists hi, datarange sc' k = Ok ((1 + 1) * offset (get_axis sc k), hi).
Proof. exact zero. Qed.
Print Assumptions C111_originzero.
Theorem C111_originzero_total : forall sc, items sc <> [] -> exists sc', originzero sc = Ok sc'.
Proof. exact zero_total. Qed.
Print Assumptions C111_originzero_total.
(* ... which is zero in a new scene, but not here. *)
Example originzero_example : exists sc', originzero example = Ok sc' /\ exists hi, datarange sc' false = Ok (Qc_of_Z 2, hi).
Proof. eexists. split; [reflexivity|]. eexists. reflexivity. Qed.
(* Doing it twice does not leave the origin at the lowest coordinate. *)
Theorem C111_originzero_twice_refuted : forall sc sc1 sc2 k m hi, datarange sc k = Ok (m, hi) -> originzero sc = Ok sc1 -> originzero sc1 = Ok sc2 ->
  exists hi', datarange sc2 k = Ok ((1 + 1) * (m - offset (get_axis sc k)), hi').
Proof. exact zero_twice. Qed.
Print Assumptions C111_originzero_twice_refuted.
(* Resetting the range moves the second axis by one. *)
Theorem C111_reset_refuted : forall sc x, x * scaling (axis1 (resetdatarange sc)) - offset (axis1 (resetdatarange sc)) = x - 1 /\
  x * scaling (axis0 (resetdatarange sc)) - offset (axis0 (resetdatarange sc)) = x.
Proof. exact reset. Qed.
Print Assumptions C111_reset_refuted.
(* Resetting the origin changes the sign of the offset. *)
Theorem C111_originreset_refuted : forall sc k, offset (get_axis (originreset sc) k) = - offset (get_axis sc k).
Proof. exact origin_reset. Qed.
Print Assumptions C111_originreset_refuted.

(* Everything is within the display limits when images have at least two pixels. *)
Theorem C111_limits : forall sc k x, (forall it, In it (items sc) -> wide k it) -> coordinate sc k x -> exists lo hi, displaylim sc k = Ok (lo, hi) /\
  (if increasing (get_axis sc k) then lo <= x * scaling (get_axis sc k) - offset (get_axis sc k) /\ x * scaling (get_axis sc k) - offset (get_axis sc k) <= hi
   else hi <= x * scaling (get_axis sc k) - offset (get_axis sc k) /\ x * scaling (get_axis sc k) - offset (get_axis sc k) <= lo).
Proof. exact limits. Qed.
Print Assumptions C111_limits.
(* Pixel i of the n pixels of an image is displayed in the middle of interval i of n equal intervals. *)
Theorem C111_pixel : forall sc (k : bool) l0 l1 n0 n1 (i : Qc), items sc = [Image l0 l1 n0 n1] -> (2 <= (if k then n1 else n0))%nat -> 0 < scaling (get_axis sc k) ->
  fst (if k then l1 else l0) < snd (if k then l1 else l0) ->
  shown_at sc k (fst (if k then l1 else l0) + i * ((snd (if k then l1 else l0) - fst (if k then l1 else l0)) / (Qc_of_Z (Z.of_nat (if k then n1 else n0)) - 1)))
    (if increasing (get_axis sc k) then (i + / (1 + 1)) / Qc_of_Z (Z.of_nat (if k then n1 else n0)) else 1 - (i + / (1 + 1)) / Qc_of_Z (Z.of_nat (if k then n1 else n0))).
Proof. exact pixel. Qed.
Print Assumptions C111_pixel.
Example wide_example : (forall it, In it (items example) -> wide false it) /\ coordinate example false (Qc_of_Z 6) /\ displaylim example false = Ok (Qc_of_Z (-2), Qc_of_Z 11).
Proof.
  split; [|split].
  - intros it [<- | [<- | []]]; cbn; [repeat constructor|exact I].
  - apply example_extremes.
  - reflexivity.
Qed.
(* An image of one row or column has no limits. *)
Theorem C111_single_refuted : forall sc (k : bool) l0 l1 n0 n1 l, items sc = Image l0 l1 n0 n1 :: l -> (if k then n1 else n0) = 1%nat -> displaylim sc k = Err not_finite.
Proof. exact single. Qed.
Print Assumptions C111_single_refuted.
(* Neither has an empty scene. *)
Theorem C111_empty : forall sc k, items sc = [] -> displaylim sc k = Err ValueError /\ datarange sc k = Err ValueError.
Proof. exact empty. Qed.
Print Assumptions C111_empty.

(* The unit of y is the unit of x. *)
Theorem C111_yunit_refuted : forall sc, stryunit sc = strxunit sc.
Proof. exact unit_y. Qed.
Print Assumptions C111_yunit_refuted.
Example yunit_example : stryunit example = "um"%string /\ strunits example (dataaxisy example) = "mm"%string.
Proof. split; reflexivity. Qed.
(* Transposing inverts the aspect ratio of the data. *)
Theorem C111_aspect_transpose : forall sc r r', aspectratio_data sc = Ok r -> aspectratio_data (transpose sc (negb (transposed sc))) = Ok r' -> r * r' = 1.
Proof. exact aspect_transpose. Qed.
Print Assumptions C111_aspect_transpose.
(* The correction times the aspect ratio of the data is the aspect ratio asked for. *)
Theorem C111_aspect : forall sc c d, aspectcorrect sc = Ok (Some c) -> aspectratio_data sc = Ok d -> aspectratio sc = Ok (c * d).
Proof. exact aspect_correct. Qed.
Print Assumptions C111_aspect.
Example aspect_example : aspectratio_data example = Ok (Q2Qc (26 # 7)) /\ aspectratio_data (transpose example true) = Ok (Q2Qc (7 # 26)) /\
  aspectcorrect (set_aspect example (Qc_of_Z 1)) = Ok (Some (Q2Qc (7 # 26))).
Proof. repeat split. Qed.

(* scene_modifyaxes: the axis displayed as x gets the order asked for, after transposing, when it is flipped or has to increase ... *)
Theorem C111_modify_x : forall sc p sc' b, modifyaxes sc p = Ok sc' -> m_incx p = Some b -> m_flipx p = true \/ b = true -> increasing (get_axis sc' (dataaxisx sc')) = b /\
  transposed sc' = (m_transpose p || transposed sc)%bool.
Proof. exact modify_x. Qed.
Print Assumptions C111_modify_x.
Theorem C111_modify_y : forall sc p sc' b, modifyaxes sc p = Ok sc' -> m_incy p = Some b -> m_flipy p = true \/ b = true -> increasing (get_axis sc' (dataaxisy sc')) = b.
Proof. exact modify_y. Qed.
Print Assumptions C111_modify_y.
Example modify_example : exists sc', modifyaxes example {| m_originzero := true; m_transpose := true; m_flipx := true; m_incx := Some true; m_flipy := false; m_incy := Some true; m_aspect := None |} = Ok sc'.
Proof. eexists. reflexivity. Qed.
(* ... but asking for a decreasing axis without flipping is the same as not asking. *)
Theorem C111_modify_decreasing_refuted : forall sc p q, m_flipx p = false -> m_incx p = Some false -> m_originzero q = m_originzero p -> m_transpose q = m_transpose p -> m_flipx q = false -> m_incx q = None ->
  m_flipy q = m_flipy p -> m_incy q = m_incy p -> m_aspect q = m_aspect p -> modifyaxes sc p = modifyaxes sc q.
Proof. exact modify_ignored. Qed.
Print Assumptions C111_modify_decreasing_refuted.
