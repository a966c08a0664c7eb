(* Grids processed in slices (C52) and cropping (C51). *)
From Verif Require Import GridModel GridSpec GridProofs.
Local Open Scope nat_scope.

(* ---- C52 ---- *)
Theorem C52_slice : forall sh d k, dimension (length sh) d k ->
  exists gen, sliceinfo sh d = Ok (del k sh, gen) /\
    forall (A : Type) (a : arr A) i, shape a = sh -> i < nth k sh 0 ->
      exists s, get (gen i) a = Ok s /\ shape s = del k sh /\
                forall j, inside (del k sh) j -> at_ s j = at_ a (ins k i j).
Proof. exact sliceinfo_ok. Qed.
Print Assumptions C52_slice.
Theorem C52_slice_error : forall sh d, ~ (exists k, dimension (length sh) d k) -> sliceinfo sh d = Err ValueError.
Proof. exact sliceinfo_error. Qed.
Print Assumptions C52_slice_error.
Example slice_case : dimension (length [2; 3; 4]) (-2) 1 /\
  (exists gen, sliceinfo [2; 3; 4] (-2) = Ok ([2; 4], gen) /\ gen 2 = [All; Pos 2; All]) /\ sliceinfo [2; 3; 4] 3 = Err ValueError.
Proof. split; [split; [repeat constructor|right; reflexivity]|]. split; [|reflexivity]. eexists. split; [reflexivity|reflexivity]. Qed.

Theorem C52_sliced : forall (A : Type) (f : A -> A) stackdim k fill (din : arr A), dimension (length (shape din)) stackdim k ->
  exists o1 o2, execute_grid (fun d => Ok (amap f d)) true stackdim fill din = Ok o1 /\
                execute_grid (fun d => Ok (amap f d)) false stackdim fill din = Ok o2 /\
                shape o1 = shape din /\ shape o2 = shape din /\
                forall i, inside (shape din) i -> at_ o1 i = f (at_ din i) /\ at_ o2 i = f (at_ din i).
Proof. exact grid_same. Qed.
Print Assumptions C52_sliced.
Theorem C52_sliced_error : forall (A : Type) (process : arr A -> result (arr A)) stackdim fill (din : arr A),
  ~ (exists k, dimension (length (shape din)) stackdim k) -> execute_grid process true stackdim fill din = Err IndexError.
Proof. exact grid_error. Qed.
Print Assumptions C52_sliced_error.
Theorem C52_replace : forall stackdim k old new fill (din : arr cell), dimension (length (shape din)) stackdim k ->
  exists o1 o2, execute_grid (replace old new) true stackdim fill din = Ok o1 /\
                execute_grid (replace old new) false stackdim fill din = Ok o2 /\
                shape o1 = shape din /\ shape o2 = shape din /\
                forall i, inside (shape din) i -> at_ o1 i = at_ o2 i /\
                  (marked old (at_ din i) = true -> at_ o1 i = new) /\ (marked old (at_ din i) = false -> at_ o1 i = at_ din i).
Proof. exact replace_same. Qed.
Print Assumptions C52_replace.
Example sliced_case : match execute_grid (fun d => Ok (amap (fun x => x * x) d)) true (-1) 0 (mkArr [2; 3] (fun i => nth 0 i 0 + 10 * nth 1 i 0)) with
  | Ok o => map (at_ o) (indices [2; 3]) = [0; 100; 400; 1; 121; 441] | Err _ => False end.
Proof. vm_compute. reflexivity. Qed.

(* the axis of signals that is put in for the grid is taken out again *)
Theorem C52_axes : forall (A : Type) (d : Z) (x : A) axes, (0 <= d <= Z.of_nat (length axes))%Z ->
  signal_axes d (grid_axes d x axes) = Ok axes /\ nth_error (grid_axes d x axes) (Z.to_nat d) = Some x.
Proof. exact axes_ok. Qed.
Print Assumptions C52_axes.
Example axes_case : grid_axes 1 9 [1; 2] = [1; 9; 2] /\ signal_axes 1 [1; 9; 2] = Ok [1; 2] /\ signal_axes 5 [1; 9; 2] = Err IndexError.
Proof. repeat split. Qed.
(* not when it is counted from the end: list.insert and list.pop count differently *)
Theorem C52_axes_refuted : exists (d : Z) axes, signal_axes d (grid_axes d 9 axes) <> Ok axes.
Proof. exact axes_refuted. Qed.
Print Assumptions C52_axes_refuted.
(* an operation that looks at the whole array gives something else *)
Theorem C52_whole_refuted : exists (process : arr nat -> result (arr nat)) (din o1 o2 : arr nat),
  execute_grid process true 0 0 din = Ok o1 /\ execute_grid process false 0 0 din = Ok o2 /\ shape o1 = shape o2 /\ ~ same o1 o2.
Proof. exact sum_refuted. Qed.
Print Assumptions C52_whole_refuted.

(* ---- C51 ---- *)
Theorem C51_mask : forall sliced m g d k, dimension (length (shape g)) d k ->
  exists mk, mask sliced m g d = Ok mk /\ shape mk = del k (shape g) /\ forall j, inside (shape mk) j -> (at_ mk j = true <-> valid m g k j).
Proof. exact mask_ok. Qed.
Print Assumptions C51_mask.
Theorem C51_mask_error : forall sliced m g d, ~ (exists k, dimension (length (shape g)) d k) ->
  mask sliced m g d = Err (if sliced then ValueError else IndexError).
Proof. exact mask_error. Qed.
Print Assumptions C51_mask_error.
(* what line_size counts *)
Theorem C51_indices : forall sh, NoDup (indices sh) /\ forall j, In j (indices sh) <-> inside sh j.
Proof. exact indices_ok. Qed.
Print Assumptions C51_indices.
Theorem C51_region : forall sliced nanfull m g k roi, k < length (shape g) -> calccroproi sliced nanfull m g (Z.of_nat k) = Ok (Some roi) ->
  exists mk, shape mk = del k (shape g) /\ (forall j, inside (shape mk) j -> (at_ mk j = true <-> valid m g k j)) /\
  length roi = length (shape g) /\ nth_error roi k = Some (0%Z, Z.of_nat (nth k (shape g) 0)) /\
  forall d ab, nth_error roi (if d <? k then d else S d) = Some ab -> hull (chosen nanfull mk d) ab.
Proof. exact roi_ok. Qed.
Print Assumptions C51_region.
Theorem C51_found : forall sliced nanfull m g k, k < length (shape g) ->
  (nanfull = false \/ forall d, d < length (shape g) -> d <> k -> 0 < nth d (shape g) 0) ->
  exists r, calccroproi sliced nanfull m g (Z.of_nat k) = Ok r /\
    (1 < length (shape g) -> (r = None <-> ~ exists j, inside (del k (shape g)) j /\ valid m g k j)).
Proof. exact roi_total. Qed.
Print Assumptions C51_found.
Theorem C51_empty : forall sliced m g k d, k < length (shape g) -> d < length (shape g) -> d <> k -> nth d (shape g) 0 = 0 ->
  calccroproi sliced true m g (Z.of_nat k) = Err ValueError \/ calccroproi sliced true m g (Z.of_nat k) = Ok None.
Proof. exact roi_empty. Qed.
Print Assumptions C51_empty.
Theorem C51_sliced : forall nanfull m g k, k < length (shape g) ->
  calccroproi true nanfull m g (Z.of_nat k) = calccroproi false nanfull m g (Z.of_nat k).
Proof. exact roi_same. Qed.
Print Assumptions C51_sliced.
Theorem C51_within : forall sliced nanfull m g k roi, k < length (shape g) -> calccroproi sliced nanfull m g (Z.of_nat k) = Ok (Some roi) ->
  within (shape g) roi.
Proof. exact roi_within. Qed.
Print Assumptions C51_within.
Example region_case :
  calccroproi true false NpNan gg 0 = Ok (Some [(0, 2); (1, 3); (0, 4)]%Z) /\ calccroproi true true NpNan gg 0 = Ok (Some [(0, 2); (1, 2); (1, 4)]%Z) /\
  calccroproi false true (Number 1) gg 0 = Ok (Some [(0, 2); (0, 1); (0, 4)]%Z) /\ calccroproi true true NpNan (amap (fun _ => None) gg) 0 = Ok None.
Proof. repeat split; vm_compute; reflexivity. Qed.

(* cutting *)
Theorem C51_crop : forall (A : Type) sliced stackdim k roi fill (din : arr A), dimension (length (shape din)) stackdim k ->
  within (shape din) roi -> nth_error roi k = Some (0%Z, Z.of_nat (nth k (shape din) 0)) ->
  exists out, crop sliced stackdim (Some roi) fill din = Ok out /\ shape out = roi_shape roi /\
    forall idx, inside (roi_shape roi) idx -> at_ out idx = at_ din (shift roi idx).
Proof. exact crop_ok. Qed.
Print Assumptions C51_crop.
Theorem C51_axes : forall (A : Type) roi (axes : list (list A)), within (map (@length A) axes) roi ->
  Forall2 (fun ax p => let '(old, (a, b)) := p in ax = firstn (Z.to_nat (b - a)) (skipn (Z.to_nat a) old) /\ length ax = Z.to_nat (b - a))
    (crop_axes (Some roi) axes) (combine axes roi).
Proof. exact crop_axes_ok. Qed.
Print Assumptions C51_axes.
Theorem C51_keeps : forall (A : Type) sliced sliced' m g k j fill (din : arr A), k < length (shape g) -> shape din = shape g ->
  inside (del k (shape g)) j -> valid m g k j ->
  exists roi out, calccroproi sliced false m g (Z.of_nat k) = Ok (Some roi) /\ crop sliced' (Z.of_nat k) (Some roi) fill din = Ok out /\
    forall i, i < nth k (shape g) 0 -> exists idx, inside (shape out) idx /\ at_ out idx = at_ din (ins k i j).
Proof. exact crop_keeps. Qed.
Print Assumptions C51_keeps.
Theorem C51_user : forall roi g k, k < length (shape g) -> length roi = length (shape g) - 1 ->
  exists r, convertuserroi roi g (Z.of_nat k) = Ok r /\ length r = length (shape g) /\
    nth_error r k = Some (0%Z, Z.of_nat (nth k (shape g) 0)) /\ del k r = roi.
Proof. exact userroi_ok. Qed.
Print Assumptions C51_user.
Example crop_case : within (shape gg) [(0, 2); (1, 3); (0, 4)]%Z /\
  (exists o, crop true 0 (Some [(0, 2); (1, 3); (1, 3)]%Z) None gg = Ok o /\ shape o = [2; 2; 2] /\ at_ o [1; 1; 0] = at_ gg [1; 2; 1]) /\
  crop_axes (Some [(1, 3); (0, 2)]%Z) [[10; 11; 12]; [20; 21]] = [[11; 12]; [20; 21]] /\ valid NpNan gg 0 [1; 3].
Proof.
  split; [repeat (constructor; [cbn; split; [reflexivity || discriminate|split; discriminate || reflexivity]|]); constructor|].
  split; [eexists; split; [vm_compute; reflexivity|split; reflexivity]|]. split; [reflexivity|].
  intros i I. destruct i as [|[|i]]; [reflexivity|reflexivity|]. cbn in I. exfalso. apply (Nat.lt_irrefl 2). eapply Nat.le_lt_trans; [|exact I]. apply le_n_S, le_n_S, Nat.le_0_l.
Qed.
(* nothing valid: the data is kept as it is, or an error when slicing *)
Theorem C51_nothing_refuted : forall (A : Type) stackdim fill (din : arr A),
  crop true stackdim None fill din = Err AttributeError /\
  exists out, crop false stackdim None fill din = Ok out /\ same out din.
Proof. exact crop_none. Qed.
Print Assumptions C51_nothing_refuted.
(* the stack dimension counted from the end *)
Theorem C51_negative_refuted : exists g, length (shape g) = 3 /\ (exists j, inside (del 2 (shape g)) j /\ valid NpNan g 2 j) /\
  calccroproi true true NpNan g (-1) = Err IndexError.
Proof. exact roi_negative_refuted. Qed.
Print Assumptions C51_negative_refuted.
Theorem C51_user_negative_refuted : exists roi g r, length (shape g) = 3 /\ convertuserroi roi g (-1) = Ok r /\
  nth_error r 2 <> Some (0%Z, Z.of_nat (nth 2 (shape g) 0)).
Proof. exact userroi_negative_refuted. Qed.
Print Assumptions C51_user_negative_refuted.
(* a NaN that is not the object np.nan, for instance one read from a file *)
Theorem C51_nan_refuted : exists g : arr cell, at_ g [0; 0; 0] = None /\
  calccroproi false false OtherNan g 0 = Ok (Some [(0, 2); (0, 3); (0, 4)]%Z) /\
  calccroproi false false NpNan g 0 = Ok (Some [(0, 2); (1, 3); (0, 4)]%Z).
Proof. exact roi_othernan_refuted. Qed.
Print Assumptions C51_nan_refuted.
Theorem C51_user_end_refuted : exists (roi : list (Z * Z)) (g : arr cell) (o : arr cell),
  crop false 0 (Some roi) None g = Ok o /\ shape o = [2; 2; 4] /\ crop true 0 (Some roi) None g = Err ValueError.
Proof. exact userroi_end_refuted. Qed.
Print Assumptions C51_user_end_refuted.
(* "full" does not mean that what is left is free of NaN *)
Theorem C51_full_refuted : exists g roi out, calccroproi false true NpNan g 0 = Ok (Some roi) /\ crop false 0 (Some roi) None g = Ok out /\
  exists idx, inside (shape out) idx /\ at_ out idx = None.
Proof. exact full_refuted. Qed.
Print Assumptions C51_full_refuted.
