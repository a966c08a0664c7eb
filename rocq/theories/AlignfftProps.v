(* C98: alignment by phase correlation (align/alignFFT.py, math/center.py) *)
From Verif Require Import AlignfftModel AlignfftSpec AlignfftMain AlignfftEdge.
From Coq Require Import Reals Lra Lia.
Local Open Scope R_scope.

(* a line whose pixels are those of the reference moved periodically by s pixels (less than half the line): the
   translation is exactly s pixels, for every subpixel sampling and both ways to locate the maximum, provided two
   neighbouring frequencies are present and the sum of squares exceeds 1 *)
Theorem C98_line_partial mem sampling m cval st fixed moving row n g g' s :
  line cval fixed row n g -> line cval moving row n g' -> (forall i, (i < n)%nat -> g' i = g (moved n s i)) ->
  centred n s -> textured n g -> 1 < total n (fun i => g i * g i) ->
  exists st1 st2, set_reference mem cval st fixed false = Ok st1 /\
    execute_alignkernel mem sampling m cval Translation st1 moving = (st2, Ok (if row then (IZR s, 0) else (0, IZR s))).
Proof. exact (kernel_line mem sampling m cval st fixed moving row n g g' s). Qed.
Print Assumptions C98_line_partial.
Example C98_line_example :
  let g i := nth i [2; 1; 0; 0] 0 in
  let im h := {| height := 1; width := 4; pixel := fun _ j => if (j =? h)%nat then Some 2 else if (j =? S h)%nat then Some 1 else None |} in
  line NotANumber (im 0%nat) true 4 g /\ line NotANumber (im 1%nat) true 4 (fun i => g (moved 4 1 i)) /\
  centred 4 1 /\ textured 4 g /\ 1 < total 4 (fun i => g i * g i).
Proof.
  cbv zeta. split; [|split; [|split; [|split]]].
  - split; [reflexivity|split; [reflexivity|]]. intros i j _ Hj. cbn in Hj. destruct j as [|[|[|[|j]]]]; [| | | |lia];
      [right; right|right; right|left|left]; (split; [reflexivity|]); try (split; reflexivity); discriminate.
  - split; [reflexivity|split; [reflexivity|]]. intros i j _ Hj. cbn in Hj. destruct j as [|[|[|[|j]]]]; [| | | |lia];
      [left|right; right|right; right|left]; (split; [reflexivity|]); try (split; reflexivity); discriminate.
  - split; vm_compute; discriminate.
  - exists 0%Z. split; [|split; [|split]]; try (vm_compute; discriminate); left; unfold total; cbn.
    + rewrite !Rmult_0_l. unfold Rdiv. rewrite !Rmult_0_l, !Rmult_0_r, cos_0. lra.
    + replace (2 * PI * (1 * 0 / (1 + 1 + 1 + 1))) with 0 by field. replace (2 * PI * (1 * 1 / (1 + 1 + 1 + 1))) with (PI / 2) by field.
      rewrite cos_0, cos_PI2. lra.
  - unfold total. cbn. lra.
Qed.

(* the same in two dimensions: first the translation in the columns, then the one in the rows *)
Theorem C98_plane_partial mem sampling m cval st fixed moving r c g g' sy sx :
  height fixed = r -> width fixed = c -> height moving = r -> width moving = c -> pixels cval fixed g -> pixels cval moving g' ->
  (forall i j, (i < r)%nat -> (j < c)%nat -> g' i j = g (moved r sy i) (moved c sx j)) ->
  centred r sy -> centred c sx -> textured2 r c g -> 1 < total2 r c (fun i j => g i j * g i j) ->
  exists st1 st2, set_reference mem cval st fixed false = Ok st1 /\
    execute_alignkernel mem sampling m cval Translation st1 moving = (st2, Ok (IZR sx, IZR sy)).
Proof. exact (kernel_plane mem sampling m cval st fixed moving r c g g' sy sx). Qed.
Print Assumptions C98_plane_partial.
Example C98_plane_example :
  let g i j := if (i =? 0)%nat && (j =? 0)%nat then 2 else 0 in
  let im y x := {| height := 3; width := 4; pixel := fun i j => if (i =? y)%nat && (j =? x)%nat then Some 2 else Some (-1) |} in
  pixels (Value (-1)) (im 0%nat 0%nat) g /\ pixels (Value (-1)) (im 2%nat 1%nat) (fun i j => g (moved 3 (-1) i) (moved 4 1 j)) /\
  centred 3 (-1) /\ centred 4 1 /\ textured2 3 4 g /\ 1 < total2 3 4 (fun i j => g i j * g i j).
Proof.
  cbv zeta.
  assert (C : forall k l, contains2 3 4 (fun i j => if (i =? 0)%nat && (j =? 0)%nat then 2 else 0) k l).
  { intros k l. left. unfold total2, total. cbn [seq map fold_right Nat.eqb andb INR]. unfold Rdiv. rewrite !Rmult_0_l, !Rmult_0_r, !Rmult_0_l, Rplus_0_r, !Rmult_0_r, cos_0. lra. }
  split; [|split; [|split; [|split; [|split]]]].
  - intros i j Hi Hj. cbn [height width pixel] in *. destruct ((i =? 0)%nat && (j =? 0)%nat).
    + right; right. split; [reflexivity|]. intros [= E]. lra.
    + right; left. exists (-1). repeat split.
  - intros i j Hi Hj. cbn [height width pixel] in *. destruct i as [|[|[|i]]]; [| | |lia]; (destruct j as [|[|[|[|j]]]]; [| | | |lia]);
      ((right; left; exists (-1); split; [reflexivity|split; reflexivity]) || (right; right; split; [reflexivity|]; intros E; injection E; cbn; lra)).
  - split; vm_compute; discriminate.
  - split; vm_compute; discriminate.
  - split; exists 0%Z, 0%Z; (split; [split; vm_compute; discriminate|split; [split; vm_compute; discriminate|split; [split; vm_compute; discriminate|split; apply C]]]).
  - unfold total2, total. cbn. lra.
Qed.

(* the previous image as reference is the image itself as reference *)
Theorem C98_previous mem sampling m cval type st im st2 r other : (0 < height im)%nat -> (0 < width im)%nat ->
  execute_alignkernel mem sampling m cval type st im = (st2, r) ->
  exists st3, set_reference mem cval st2 other true = Ok st3 /\ set_reference mem cval st2 im false = Ok st3.
Proof. exact (kernel_previous mem sampling m cval type st im st2 r other). Qed.
Print Assumptions C98_previous.
(* another reference does not change what the previous image is *)
Theorem C98_other_reference mem cval st q st2 q1 : set_reference mem cval st q false = Ok st2 ->
  exists s a, set_reference mem cval st2 q1 true = Ok s /\ set_reference mem cval st q1 true = Ok a /\ fixedft s = fixedft a /\ movingft s = movingft a.
Proof. exact (AlignfftProofs.other_reference mem cval st q st2 q1). Qed.
Print Assumptions C98_other_reference.

(* aligning a line without texture with itself moves it by almost two pixels *)
Theorem C98_flat_refuted mem sampling m cval st im row n x : (2 <= n)%nat -> (1 < sampling)%Z -> line cval im row n (fun _ => x) ->
  exists st1 st2, set_reference mem cval st im false = Ok st1 /\
    execute_alignkernel mem sampling m cval Translation st1 im = (st2, Ok (if row then (- (2 - / IZR sampling), 0) else (0, - (2 - / IZR sampling)))).
Proof. exact (kernel_flat mem sampling m cval st im row n x). Qed.
Print Assumptions C98_flat_refuted.
Example C98_flat_example : line NotANumber {| height := 1; width := 5; pixel := fun _ _ => Some 7 |} true 5 (fun _ => 7).
Proof. split; [reflexivity|split; [reflexivity|]]. intros i j Hi Hj. right; right. split; [reflexivity|discriminate]. Qed.

(* aligning a single faint pixel with itself moves it by a pixel: a zero correlation counts as 1 *)
Theorem C98_faint_refuted mem sampling m cval st im row n x : (3 <= n)%nat -> (sampling <= 1)%Z -> / 10 ^ 20 <= x * x -> x * x < 1 ->
  line cval im row n (fun j => if (j =? 0)%nat then x else 0) ->
  exists st1 st2, set_reference mem cval st im false = Ok st1 /\
    execute_alignkernel mem sampling m cval Translation st1 im = (st2, Ok (if row then (1, 0) else (0, 1))).
Proof. exact (kernel_faint mem sampling m cval st im row n x). Qed.
Print Assumptions C98_faint_refuted.
Example C98_faint_example :
  / 10 ^ 20 <= 1 / 2 * (1 / 2) < 1 /\
  line NotANumber {| height := 6; width := 1; pixel := fun i _ => if (i =? 0)%nat then Some (1 / 2) else None |} false 6 (fun j => if (j =? 0)%nat then 1 / 2 else 0).
Proof.
  split.
  - split; [|lra]. apply (Rle_trans _ (/ 10 ^ 1)); [|lra]. apply Rinv_le_contravar; [lra|]. apply Rle_pow; [lra|lia].
  - split; [reflexivity|split; [reflexivity|]]. intros i j Hi Hj. cbn [pixel]. destruct (i =? 0)%nat; [right; right|left]; (split; [reflexivity|]); [discriminate|split; reflexivity].
Qed.

(* rigid and similarity alignment always give the same translation, whatever the images *)
Theorem C98_rigid_refuted mem sampling m cval st fixed moving r c g g' type :
  (2 <= r)%nat -> (2 <= c)%nat -> height fixed = r -> width fixed = c -> height moving = r -> width moving = c -> pixels cval fixed g -> pixels cval moving g' ->
  type = Rigid \/ type = Similarity ->
  exists st1 st2, set_reference mem cval st fixed false = Ok st1 /\
    execute_alignkernel mem sampling m cval type st1 moving = (st2, Ok (-84, -48)).
Proof. exact (kernel_rigid mem sampling m cval st fixed moving r c g g' type). Qed.
Print Assumptions C98_rigid_refuted.

(* a pixel that is not a number while missing pixels have another value *)
Theorem C98_nan mem sampling m cval st im i j : (i < height im)%nat -> (j < width im)%nat -> pixel im i j = None -> cval <> NotANumber ->
  fixedft st <> None -> snd (execute_alignkernel mem sampling m cval Translation st im) = Err ValueError.
Proof. exact (kernel_nan mem sampling m cval st im i j). Qed.
Print Assumptions C98_nan.
(* the transformations that are not supported, and no reference *)
Theorem C98_errors mem sampling m cval st im : (0 < height im)%nat -> (0 < width im)%nat ->
  (is1D im = true -> forall type, type <> Translation -> snd (execute_alignkernel mem sampling m cval type st im) = Err ValueError) /\
  (is1D im = false -> forall type, type = Affine \/ type = Projective -> snd (execute_alignkernel mem sampling m cval type st im) = Err NotImplementedError) /\
  (fixedft st = None -> snd (execute_alignkernel mem sampling m cval Translation st im) = Err AttributeError).
Proof. exact (kernel_errors mem sampling m cval st im). Qed.
Print Assumptions C98_errors.
