(* Vocabulary for the properties of align/align.py and the images used in counterexamples. *)
From Verif Require Import TransformSpec.
From Verif Require Export AlignModel.
Local Open Scope Z_scope.

(** ** C32 *)
(* the value of a pixel, if there is one at that row and column *)
Definition pixel {V} (i : img V) (r c : Z) : option V :=
  if (r <? 0) || (c <? 0) then None
  else match nth_error (rows i) (Z.to_nat r) with Some l => nth_error l (Z.to_nat c) | None => None end.
(* all rows have as many pixels as the image has columns *)
Definition rectangular {V} (i : img V) : Prop :=
  0 <= cols i /\ Forall (fun l => Z.of_nat (length l) = cols i) (rows i).
(* the value of an axis at position z, also before its first and after its last point, where
   it goes on with the spacing of its first two or last two points *)
Definition axis_value (a : list Qc) (z : Z) (v : Qc) : Prop :=
  let n := Z.of_nat (length a) in
  (0 <= z < n /\ nth_error a (Z.to_nat z) = Some v)
  \/ (z < 0 /\ exists v0 v1, nth_error a 0 = Some v0 /\ nth_error a 1 = Some v1
                             /\ v = (v0 + (v1 - v0) * Qc_of_Z z)%Qc)
  \/ (n <= z /\ exists w1 w2, nth_error a (length a - 1) = Some w1 /\ nth_error a (length a - 2) = Some w2
                              /\ v = (w1 + (w1 - w2) * Qc_of_Z (z - n + 1))%Qc).
(* l has the values of the axis from position lo to position hi *)
Definition axis_range (a : list Qc) (lo hi : Z) (l : list (option Qc)) : Prop :=
  Z.of_nat (length l) = hi - lo + 1 /\
  forall k, 0 <= k < hi - lo + 1 ->
  exists v, nth_error l (Z.to_nat k) = Some (Some v) /\ axis_value a (lo + k) v.
(* the range from lo to hi can be made from an axis of n points: it is not empty by more than
   one, touches the axis, and there is a spacing when it is longer than the axis *)
Definition range_of_axis (n lo hi : Z) : Prop :=
  lo <= hi + 1 /\ lo <= n /\ -1 <= hi /\ (2 <= n \/ (0 <= lo /\ hi < n)).
(* the three axes of a stack with the stack dimension at position sd *)
Definition stack_axes {A} (sd : Z) (s y x : A) : list A :=
  if sd =? 0 then [s; y; x] else if sd =? 1 then [y; s; x] else [y; x; s].

(** ** C33, C34 *)
Definition is_translation (t : mapping) : Prop := match t with Trn _ _ => True | Lin _ _ => False end.
(* both keep two numbers or both keep a matrix *)
Definition same_shape (s t : mapping) : Prop :=
  match s, t with Trn _ _, Trn _ _ | Lin _ _, Lin _ _ => True | _, _ => False end.
(* the image after the transformation; nothing is done for the identity *)
Definition image_of {I} (apply : mapping -> I -> result I) (t : mapping) (im im' : I) : Prop :=
  (isidentity t = true /\ im' = im) \/ (isidentity t = false /\ apply t im = Ok im').
(* image i of every dataset, in the order in which they are written *)
Definition all_images (nsets nimages : nat) : list (nat * nat) :=
  flat_map (fun i => map (fun j => (j, i)) (seq 0 nsets)) (seq 0 nimages).
(* every image of every dataset was written, and image i of every dataset is the result of
   transformation i *)
Definition transformed_alike {I} (apply : mapping -> I -> result I) (before_transform : nat -> I -> I)
    (after_transform : I -> I) (raw : nat -> nat -> I) (c : settings) (ts : list mapping) (out : list (written (I:=I))) : Prop :=
  map fst out = all_images (nsets c) (nimages c) /\
  forall j i im, In (j, i, im) out ->
  exists t mid, nth_error ts i = Some t /\ image_of apply t (before_transform i (raw j i)) mid /\ im = after_transform mid.
(* when nopre (nopost) says that nothing is done before (after) the transformation, then
   nothing is done *)
Definition flags_right {I} (before_transform : nat -> I -> I) (after_transform : I -> I) (c : settings) : Prop :=
  (forall i im, nopre c i = true -> before_transform i im = im) /\ (nopost c = true -> forall im, after_transform im = im).

(* all transformations and frames are translations, and there is one for every image *)
Definition trn_state (c : settings) (st : state) : Prop :=
  Forall is_translation (transfos st) /\ Forall (fun f => is_translation (fst f) /\ is_translation (snd f)) (frames st)
  /\ (nimages c <= length (transfos st))%nat /\ (nimages c <= length (frames st))%nat.
(* there is a transformation for every image, of the shape of u *)
Definition shaped (c : settings) (u : mapping) (st : state) : Prop :=
  Forall (same_shape u) (transfos st) /\ (nimages c <= length (transfos st))%nat.

(* Images with one feature: an image is the position of the feature; a transformation moves it
   from old coordinates to new ones.  The kernel finds the translation exactly. *)
Definition feature := (Qc * Qc)%type.
Definition feature_apply (t : mapping) (p : feature) : result feature :=
  match t with Trn x y => Ok ((fst p - x)%Qc, (snd p - y)%Qc) | Lin _ _ => Err NotImplementedError end.
Definition feature_kernel (fixed moving : feature) : mapping :=
  Trn (fst moving - fst fixed)%Qc (snd moving - snd fixed)%Qc.
(* two datasets, in which the feature moves by one pixel from image to image *)
Definition drift (j i : nat) : feature := (Qc_of_Z (Z.of_nat i), Qc_of_Z (Z.of_nat j)).
Definition ex_pairwise (onraw : bool) : settings :=
  {| nsets := 2; nimages := 3; refdataset := 0; refimage := None; alignonraw := onraw;
     has_roi := false; nopre := fun _ => true; nopost := true |}.
Definition ex_align (onraw : bool) : result (state * list (written (I:=feature))) :=
  align feature_apply feature_kernel (fun _ im => im) (fun _ im => im) (fun im => im) drift
    (ex_pairwise onraw) false None [Trn 0 0; Trn 0 0; Trn 0 0] None (new_state (Trn 0 0) 3).
(* images that show which transformation was applied last *)
Definition ex_quarter : mapping := Lin Rigid (M33 0 (-(1)) 0 1 0 0 0 0 1)%Qc.
Definition ex_shift : mapping := Lin Rigid (M33 1 0 1 0 1 0 0 0 1)%Qc.
Definition ex_rigid_state : state := St [ex_quarter] [(ex_shift, ex_shift)].
Definition ex_execute (st : state) : result (list mapping * state) :=
  execute_transform (fun t (im : list mapping) => Ok (im ++ [t])) st 0 [].
(* a feature that turns by a quarter around the origin and then moves by one pixel *)
Definition ex_positions (i : nat) : feature :=
  match i with O => (1, 0) | 1%nat => (0, 1) | _ => (1, 1) end%Qc.
Definition ex_kernels (i : nat) : mapping := match i with 1%nat => ex_quarter | _ => ex_shift end.
(* the calculated transformations of three images *)
Definition ex_rigid_settings : settings :=
  {| nsets := 1; nimages := 3; refdataset := 0; refimage := None; alignonraw := true;
     has_roi := false; nopre := fun _ => true; nopost := true |}.
(* an image is its own number *)
Definition ex_rigid_calc : result (state * list (written (I:=nat))) :=
  doalign (fun _ im => Ok im) (fun _ moving => ex_kernels moving) (fun _ im => im) (fun _ im => im) (fun im => im)
    (fun _ i => i) ex_rigid_settings CalcTransfo (new_state (Lin Rigid id33) 3).
(* rows 1 to 3 and columns 2 to 4 *)
Definition ex_roi : option ((Qc * Qc) * (Qc * Qc)) := Some ((Qc_of_Z 1, Qc_of_Z 3), (Qc_of_Z 2, Qc_of_Z 4)).
