(* C32: padding and cropping; C33: all datasets get the same transformation; C34: pairwise
   alignment accumulates to the first image. *)
From Verif Require Import TransformSpec TransformExProofs AlignSpec AlignPadProofs AlignProofs AlignTopProofs AlignExProofs.
Local Open Scope Z_scope.

(** * C32 *)
(* The part from (xmin, ymin) to (xmax, ymax) of an image: the size is that of dest_imgsize,
   and pixel (r, c) is pixel (ymin + r, xmin + c) of the image, or cval outside it. *)
Theorem C32_image {V} (cval : V) (i : img V) xmin ymin xmax ymax :
  rectangular i -> ymin <= ymax + 1 -> xmin <= xmax + 1 ->
  let s := setextend (nrows i, cols i) xmin ymin xmax ymax in
  let o := pad_and_crop cval s i in
  rectangular o /\
  (nrows o, cols o) = (ymax - ymin + 1, xmax - xmin + 1) /\
  dest_imgsize (nrows i, cols i) s = (nrows o, cols o) /\
  forall r c, 0 <= r < nrows o -> 0 <= c < cols o ->
  pixel o r c = Some match pixel i (ymin + r) (xmin + c) with Some v => v | None => cval end.
Proof. exact (image_extended cval i xmin ymin xmax ymax). Qed.
Print Assumptions C32_image.
Example C32_image_example :
  pad_and_crop 0 (setextend (2, 3) (-1) 1 1 2) (Img 3 [[1; 2; 3]; [4; 5; 6]]) = Img 3 [[0; 4; 5]; [0; 0; 0]].
Proof. reflexivity. Qed.

(* The axes of the image have the values of its part, which go on with the spacing of the ends
   outside the image; the axis of the stack is not changed.  Full claim: for all extensions. *)
Theorem C32_axes_partial sd (s y x : list Qc) xmin ymin xmax ymax : 0 <= sd <= 2 ->
  range_of_axis (Z.of_nat (length y)) ymin ymax -> range_of_axis (Z.of_nat (length x)) xmin xmax ->
  exists y' x', transform_axes (setextend (Z.of_nat (length y), Z.of_nat (length x)) xmin ymin xmax ymax) sd (stack_axes sd s y x)
                = Ok (stack_axes sd (map Some s) y' x')
                /\ axis_range y ymin ymax y' /\ axis_range x xmin xmax x'.
Proof. exact (axes_extended sd s y x xmin ymin xmax ymax). Qed.
Print Assumptions C32_axes_partial.
Example C32_axes_example : range_of_axis 2 (-1) 1 /\ range_of_axis 3 1 2 /\ range_of_axis 4 4 9.
Proof. unfold range_of_axis. lia. Qed.
(* A part that does not touch the image has an image but no axis: cutting eight of five rows
   and adding five on the other side. *)
Theorem C32_overcrop_refuted :
  transform_axis [1; 1; 1; 1; 1]%Qc (-8) 5 = Err ValueError
  /\ forall v : Z, let i := Img 1 [[v]; [v]; [v]; [v]; [v]] in
     let o := pad_and_crop 0 (setextend (nrows i, cols i) 0 8 0 9) i in (nrows o, cols o) = (2, 1).
Proof. split; reflexivity. Qed.
Print Assumptions C32_overcrop_refuted.

(** * C33 *)
Section C33.
Context {I : Type}.
Variables (apply : mapping -> I -> result I) (kernel : I -> I -> mapping) (prep before_transform : nat -> I -> I)
  (after_transform : I -> I) (raw : nat -> nat -> I) (c : settings).
Local Notation doal := (doalign apply kernel prep before_transform after_transform raw c).

(* Applying stored translations (also again, because the stored ones do not change). *)
Theorem C33_reapply_partial st :
  (forall x y im, exists im', apply (Trn x y) im = Ok im') -> flags_right before_transform after_transform c ->
  trn_state c st ->
  exists out, doal UseTransfo st = Ok (st, out)
    /\ transformed_alike apply before_transform after_transform raw c (transfos st) out.
Proof. exact (fun H1 H2 => use_translations apply kernel prep before_transform after_transform raw c H1 H2 st). Qed.

(* align with a roi, padding, cropping, a function for the raw data or manual translations:
   afterwards the stored translations were applied, and applying them again (redo) gives the
   same. *)
Theorem C33_align_partial roi pres center st :
  (forall x y im, exists im', apply (Trn x y) im = Ok im') -> (forall fixed moving, is_translation (kernel fixed moving)) ->
  flags_right before_transform after_transform c -> trn_state c st -> Forall is_translation pres ->
  exists st' out, align apply kernel prep before_transform after_transform raw c true roi pres center st = Ok (st', out)
    /\ transformed_alike apply before_transform after_transform raw c (transfos st') out
    /\ doal UseTransfo st' = Ok (st', out).
Proof.
  exact (fun H1 H2 H3 => align_twopass apply kernel prep before_transform after_transform raw c H1 H2 H3 roi pres center st).
Qed.

(* align without any of these, on a fixed reference or pairwise on the aligned images *)
Theorem C33_onepass_partial pres st :
  (forall x y im, exists im', apply (Trn x y) im = Ok im') -> (forall fixed moving, is_translation (kernel fixed moving)) ->
  flags_right before_transform after_transform c -> trn_state c st -> Forall is_translation pres ->
  (forall i im, prep i im = im) -> (forall i im, before_transform i im = im) -> (forall im, after_transform im = im) ->
  (refimage c <> None \/ alignonraw c = false) ->
  exists st' out, align apply kernel prep before_transform after_transform raw c false None pres None st = Ok (st', out)
    /\ transformed_alike apply before_transform after_transform raw c (transfos st') out.
Proof.
  exact (fun H1 H2 H3 => align_onepass apply kernel prep before_transform after_transform raw c H1 H2 H3 st pres).
Qed.

(* align fails for every other kind of transformation *)
Theorem C33_kinds_refuted twopass k m n roi pres center : pres <> [] ->
  align apply kernel prep before_transform after_transform raw c twopass roi pres center (new_state (Lin k m) (S n)) = Err ValueError.
Proof. exact (align_other_kinds apply kernel prep before_transform after_transform raw c twopass k m n roi pres center). Qed.
End C33.
Print Assumptions C33_reapply_partial.
Print Assumptions C33_align_partial.
Print Assumptions C33_onepass_partial.
Print Assumptions C33_kinds_refuted.
Example C33_align_example :
  (forall x y im, exists im', feature_apply (Trn x y) im = Ok im')
  /\ (forall fixed moving, is_translation (feature_kernel fixed moving))
  /\ flags_right (I:=feature) (fun _ im => im) (fun im => im) (ex_pairwise false)
  /\ trn_state (ex_pairwise false) (new_state (Trn 0 0) 3).
Proof.
  split; [exact feature_apply_trn|]. split; [exact feature_kernel_trn|]. split; [now split|].
  repeat split; repeat constructor.
Qed.
(* Pairwise alignment on the raw images without padding and cropping: image 2 of the reference
   dataset is only moved onto image 1, image 2 of the other dataset onto image 0. *)
Theorem C33_onraw_refuted : exists st out, ex_align true = Ok (st, out) /\
  ~ transformed_alike feature_apply (fun _ im => im) (fun im => im) drift (ex_pairwise true) (transfos st) out.
Proof. exact onraw_not_alike. Qed.
Print Assumptions C33_onraw_refuted.
Example C33_onraw_values : match outcome (ex_align true) with
  | Some (_, out) => written_at out 0 2 = Some (1, 0)%Qc /\ written_at out 1 2 = Some (0, 1)%Qc
  | None => False end.
Proof. exact onraw_values. Qed.
(* Executing a stored rotation in another frame changes the stored rotation: the next dataset
   gets another transformation. *)
Theorem C33_frame_refuted : exists im1 st1 im2 st2,
  ex_execute ex_rigid_state = Ok (im1, st1) /\ ex_execute st1 = Ok (im2, st2) /\ im1 <> im2.
Proof. exact executed_twice. Qed.
Print Assumptions C33_frame_refuted.
(* The frame for a region of interest starting at row 1 and column 2 is not the translation
   by (-2, -1). *)
Theorem C33_roi_refuted : forall r, calccof_prealign_to_raw ex_roi (Trn 0 0, Trn 0 0) (Trn 0 0) = Ok r ->
  fst r <> Trn (- Qc_of_Z 2)%Qc (- Qc_of_Z 1)%Qc.
Proof. exact roi_frame. Qed.
Print Assumptions C33_roi_refuted.

(** * C34 *)
Section C34.
Local Open Scope nat_scope.
Context {I : Type}.
Variables (apply : mapping -> I -> result I) (kernel : I -> I -> mapping) (prep before_transform : nat -> I -> I)
  (after_transform : I -> I) (raw : nat -> nat -> I) (c : settings).
Local Notation doal := (doalign apply kernel prep before_transform after_transform raw c).
Local Notation img := (fun i => prep i (raw (refdataset c) i)).

(* For a feature that is at P k in image k, and which the align kernel follows from image k to
   image k + 1, the stored translation k leads from P 0 to P k: it maps image k onto image 0. *)
Theorem C34_pairwise_partial ty st (P : nat -> Qc * Qc) :
  (forall x y im, exists im', apply (Trn x y) im = Ok im') -> (forall fixed moving, is_translation (kernel fixed moving)) ->
  flags_right before_transform after_transform c -> ty <> UseTransfo -> trn_state c st -> refimage c = None -> alignonraw c = true ->
  (forall k, S k < nimages c -> old_point (kernel (img k) (img (S k))) (P k) = Some (P (S k))) ->
  exists st' out, doal ty st = Ok (st', out) /\
  forall k, k < nimages c -> exists t, nth_error (transfos st') k = Some t /\ old_point t (P 0) = Some (P k).
Proof.
  exact (fun H1 H2 H3 => pairwise_points apply kernel prep before_transform after_transform raw c H1 H2 H3 ty st P).
Qed.

(* The stored transformation, for every kind: that of the previous image combined with the
   pairwise one.  *)
Theorem C34_accumulated u st :
  (forall fixed moving, same_shape u (kernel fixed moving) /\ exists im', image_of apply (kernel fixed moving) moving im') ->
  shaped c u st -> refimage c = None -> alignonraw c = true ->
  exists st', doal CalcTransfo st = Ok (st', []) /\
  forall k, k < nimages c -> exists t, nth_error (transfos st') k = Some t
    /\ (k = 0 -> isidentity t = true)
    /\ (k <> 0 -> exists q, nth_error (transfos st') (k - 1) = Some q /\ t = before q (kernel (img (k - 1)) (img k))).
Proof. exact (calc_pairwise apply kernel prep before_transform after_transform raw c u st). Qed.

(* With a fixed reference every image has the transformation onto the reference. *)
Theorem C34_fixed u st r :
  (forall fixed moving, same_shape u (kernel fixed moving) /\ exists im', image_of apply (kernel fixed moving) moving im') ->
  shaped c u st -> refimage c = Some r ->
  exists st', doal CalcTransfo st = Ok (st', []) /\
  forall k, k < nimages c -> exists t, nth_error (transfos st') k = Some t
    /\ (k = r -> isidentity t = true) /\ (k <> r -> t = kernel (img r) (img k)).
Proof. exact (calc_fixed apply kernel prep before_transform after_transform raw c u st r). Qed.
End C34.
Print Assumptions C34_pairwise_partial.
Print Assumptions C34_accumulated.
Print Assumptions C34_fixed.
Example C34_pairwise_example : forall k, (S k < nimages (ex_pairwise true))%nat ->
  old_point (feature_kernel (drift 0 k) (drift 0 (S k))) (drift 0 k) = Some (drift 0 (S k)).
Proof.
  intros k Hk. cbn in Hk. destruct k as [|[|k]]; [apply opt_pair_eq; vm_compute; reflexivity..|lia].
Qed.
(* Not for rigid transformations: they are combined in the wrong order.  A feature that turns
   by a quarter around the origin and then moves. *)
Theorem C34_order_refuted : exists st, ex_rigid_calc = Ok (st, []) /\
  (forall k, (S k < 3)%nat -> old_point (ex_kernels (S k)) (ex_positions k) = Some (ex_positions (S k))) /\
  exists t, nth_error (transfos st) 2 = Some t /\ old_point t (ex_positions 0) <> Some (ex_positions 2).
Proof. exact quarter_order. Qed.
Print Assumptions C34_order_refuted.
