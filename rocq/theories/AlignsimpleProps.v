(* C100: alignment on a marker (align/alignSimple.py): the maximum, the minimum or the centroid. *)
From Verif Require Import QcTac CenterModel CenterSpec AlignsimpleModel AlignsimpleSpec AlignsimpleProofs.
Local Open Scope Qc_scope.

(* The translation is the displacement of the maximum: from the first greatest pixel of the reference that is not missing to the one of the image. *)
Theorem C100_max : forall fit1 fit2 cval st p p' y x m y' x' m', writable cval p -> writable cval p' -> peak cval (img p) y x m -> peak cval (img p') y' x' m' ->
  exists st1 st2, set_reference fit1 fit2 cval Max st p false = Ok st1 /\
    execute_alignkernel fit1 fit2 cval Max Translation st1 p' =
      (st2, Ok (Some (Qc_of_Z (Z.of_nat x' - Z.of_nat x)), Some (Qc_of_Z (Z.of_nat y' - Z.of_nat y)))).
Proof. exact kernel_max. Qed.
Print Assumptions C100_max.
(* ... or of the minimum *)
Theorem C100_min : forall fit1 fit2 cval st p p' y x m y' x' m', writable cval p -> writable cval p' -> valley cval (img p) y x m -> valley cval (img p') y' x' m' ->
  exists st1 st2, set_reference fit1 fit2 cval Min st p false = Ok st1 /\
    execute_alignkernel fit1 fit2 cval Min Translation st1 p' =
      (st2, Ok (Some (Qc_of_Z (Z.of_nat x' - Z.of_nat x)), Some (Qc_of_Z (Z.of_nat y' - Z.of_nat y)))).
Proof. exact kernel_min. Qed.
Print Assumptions C100_min.
(* An image that shows the same scene (sx, sy) pixels further, with nothing as great as the maximum entering it: the translation is exactly (sx, sy), and the
   transformed image shows the pixels of the reference, wherever they are in both. *)
Theorem C100_displaced : forall fit1 fit2 cval st p p' sy sx y x y' x' m missing, writable cval p -> writable cval p' -> peak cval (img p) y x m -> displaced (img p) (img p') sy sx ->
  (y' < ny (img p'))%nat -> (x' < nx (img p'))%nat -> (Z.of_nat y' = Z.of_nat y + sy)%Z -> (Z.of_nat x' = Z.of_nat x + sx)%Z ->
  (forall i j v, holds cval (img p') i j v -> fresh (img p) (img p') sy sx i j -> v < m) ->
  exists st1 st2, set_reference fit1 fit2 cval Max st p false = Ok st1 /\
    execute_alignkernel fit1 fit2 cval Max Translation st1 p' = (st2, Ok (Some (Qc_of_Z sx), Some (Qc_of_Z sy))) /\
    forall i j, (i < ny (img p))%nat -> (j < nx (img p))%nat -> (0 <= Z.of_nat i + sy < Z.of_nat (ny (img p')))%Z -> (0 <= Z.of_nat j + sx < Z.of_nat (nx (img p')))%Z ->
      pix (shifted missing (img p') sx sy) i j = pix (img p) i j.
Proof. exact displaced_aligned. Qed.
Print Assumptions C100_displaced.
(* The centroid is displaced as the square around the maximum is, although its axes are exchanged (C83_axes_refuted): missing pixels count as zero, the
   square holds a pixel below nine tenths of the maximum and is the same in both images. *)
Theorem C100_centroid : forall fit1 fit2 cval st p p' z z' y x y' x' off, zeroed cval p z -> zeroed cval p' z' ->
  (forall i j, 0 <= z i j) -> 0 < z y x -> summit (ny (img p)) (nx (img p)) z y x -> summit (ny (img p')) (nx (img p')) z' y' x' ->
  (1 <= off)%nat -> inside (img p) y x off -> inside (img p') y' x' off ->
  (forall a b, (a <= off + off)%nat -> (b <= off + off)%nat -> z (y - off + a)%nat (x - off + b)%nat = z' (y' - off + a)%nat (x' - off + b)%nat) ->
  (exists a b, (a <= off + off)%nat /\ (b <= off + off)%nat /\ z (y - off + a)%nat (x - off + b)%nat < Q2Qc (9 # 10) * z y x) ->
  exists st1 st2, set_reference fit1 fit2 cval Centroid st p false = Ok st1 /\
    execute_alignkernel fit1 fit2 cval Centroid Translation st1 p' =
      (st2, Ok (Some (Qc_of_Z (Z.of_nat x' - Z.of_nat x)), Some (Qc_of_Z (Z.of_nat y' - Z.of_nat y)))).
Proof. exact kernel_centroid. Qed.
Print Assumptions C100_centroid.
(* After an image has been aligned, taking the previous image as the reference is taking that image, whatever image is passed. *)
Theorem C100_previous : forall fit1 fit2 cval k st p st1 r q, execute_alignkernel fit1 fit2 cval k Translation st p = (st1, Ok r) ->
  exists s a, set_reference fit1 fit2 cval k st1 q true = Ok s /\ set_reference fit1 fit2 cval k st1 p false = Ok a /\ fixedxy s = fixedxy a /\ movingxy s = movingxy a /\ fixedxy s <> None.
Proof. exact previous. Qed.
Print Assumptions C100_previous.
(* Another reference does not change what the previous image is. *)
Theorem C100_other_reference : forall fit1 fit2 cval k st q st2 q1, set_reference fit1 fit2 cval k st q false = Ok st2 ->
  exists s a, set_reference fit1 fit2 cval k st2 q1 true = Ok s /\ set_reference fit1 fit2 cval k st q1 true = Ok a /\ fixedxy s = fixedxy a /\ movingxy s = movingxy a.
Proof. exact other_reference. Qed.
Print Assumptions C100_other_reference.
(* With no previous image there is no reference and nothing is aligned. *)
Theorem C100_previous_first : forall fit1 fit2 cval k p q type st, set_reference fit1 fit2 cval k {| fixedxy := None; movingxy := None |} q true = Ok st ->
  exists e, snd (execute_alignkernel fit1 fit2 cval k type st p) = Err e.
Proof. exact previous_first. Qed.
Print Assumptions C100_previous_first.
(* Only translations are supported. *)
Theorem C100_unsupported : forall fit1 fit2 cval k st p type, type <> Translation -> execute_alignkernel fit1 fit2 cval k type st p = (st, Err NotImplementedError).
Proof. exact unsupported. Qed.
Print Assumptions C100_unsupported.
(* An image of missing pixels has no maximum and no minimum. *)
Theorem C100_nothing : forall fit1 fit2 cval k st p, k <> Centroid -> k <> Gaussmax -> writable cval p -> (forall i j v, ~ holds cval (img p) i j v) ->
  set_reference fit1 fit2 cval k st p false = Err ValueError.
Proof. exact nothing. Qed.
Print Assumptions C100_nothing.
(* Missing pixels in an image of integers cannot be replaced by nan. *)
Theorem C100_integers : forall fit1 fit2 cval k st p, k <> Centroid -> ~ writable cval p -> integers p = true -> set_reference fit1 fit2 cval k st p false = Err ValueError.
Proof. exact unwritable. Qed.
Print Assumptions C100_integers.
(* An image without a marker is no reference and is not aligned, and the marker of the image before it is kept. *)
Theorem C100_error : forall fit1 fit2 cval k st p e, set_reference fit1 fit2 cval k st p false = Err e -> execute_alignkernel fit1 fit2 cval k Translation st p = (st, Err e).
Proof. exact kernel_error. Qed.
Print Assumptions C100_error.
(* refuted: missing pixels are not ignored when zero marks them; the minimum of a bright image is at the missing pixel *)
Theorem C100_zero_refuted : forall fit1 fit2, exists p y x, getxy fit1 fit2 (Number 0) Min p = Ok (Some (of_nat x), Some (of_nat y)) /\ pix (img p) y x = Some 0 /\
  forall i j, (i, j) <> (y, x) -> exists v, pix (img p) i j = Some v /\ 0 < v.
Proof. exact zero_min. Qed.
Print Assumptions C100_zero_refuted.
(* refuted: another nan than np.nan marks missing pixels, which then stay and make the centroid nan *)
Theorem C100_nan_refuted : forall fit1 fit2, exists p x y, getxy fit1 fit2 OtherNan Centroid p = Ok (None, None) /\ getxy fit1 fit2 NpNan Centroid p = Ok (Some x, Some y).
Proof. exact other_nan. Qed.
Print Assumptions C100_nan_refuted.

(* ---- cases: a scene of 4 x 5 pixels with a missing one, and the scene one row and two columns further ---- *)
Definition scene (i j : nat) : datum := if (i =? 1)%nat && (j =? 1)%nat then Some (of_nat 10) else if (i =? 0)%nat && (j =? 3)%nat then None else Some (of_nat (i + j)).
Definition before : picture := {| img := {| ny := 4; nx := 5; pix := scene |}; integers := false |}.
Definition after : picture := {| img := {| ny := 4; nx := 5; pix := fun i j => if (1 <=? i)%nat && (2 <=? j)%nat then scene (i - 1) (j - 2) else Some 0 |}; integers := false |}.
Example C100_writable_ex : writable NpNan before /\ writable NpNan after.
Proof. split; left; reflexivity. Qed.
Example C100_scene_ex i j v : (i < 4)%nat -> (j < 5)%nat -> scene i j = Some v -> v <= of_nat 10 /\ (v = of_nat 10 -> i = 1%nat /\ j = 1%nat).
Proof.
  intros Hi Hj. do 4 (destruct i as [|i]; [do 5 (destruct j as [|j]; [cbn [scene Nat.eqb andb]; intros H; try discriminate; match type of H with Some ?q = _ => let E := fresh in assert (E : v = q) by congruence; rewrite E end; (split; [apply Qc_of_Z_le; lia|intros Q; try (split; reflexivity); apply Qc_of_Z_inj in Q; lia])|]); lia|]); lia.
Qed.
Example C100_peak_ex : peak NpNan (img before) 1 1 (of_nat 10).
Proof.
  split; [repeat split; try (cbn; lia); discriminate|]. split.
  - intros i j v (Hi & Hj & E & _). now apply (C100_scene_ex i j).
  - intros i j v (Hi & Hj & E & _) L. destruct (C100_scene_ex i j v Hi Hj E) as [A B]. apply Qcle_lt_or_eq in A as [A|A]; [exact A|]. exfalso. apply B in A as [-> ->]. destruct L as [L|[_ L]]; lia.
Qed.
Example C100_displaced_ex : displaced (img before) (img after) 1 2.
Proof.
  intros i j i' j' _ _ _ _ Ei Ej. cbn [img before after pix]. replace i' with (i + 1)%nat by lia. replace j' with (j + 2)%nat by lia.
  destruct (Nat.leb_spec 1 (i + 1)); [|lia]. destruct (Nat.leb_spec 2 (j + 2)); [|lia]. cbn [andb]. f_equal; lia.
Qed.
Example C100_fresh_ex : forall i j v, holds NpNan (img after) i j v -> fresh (img before) (img after) 1 2 i j -> v < of_nat 10.
Proof.
  intros i j v (Hi & Hj & E & _) F. cbn [img after ny nx pix] in *. destruct (Nat.leb_spec 1 i); [destruct (Nat.leb_spec 2 j)|].
  - exfalso. apply F. exists (i - 1)%nat, (j - 2)%nat. cbn. lia.
  - cbn [andb] in E. assert (Q : v = 0) by congruence. rewrite Q. change (Q2Qc 0) with (Qc_of_Z 0). apply Qc_of_Z_lt. lia.
  - cbn [andb] in E. assert (Q : v = 0) by congruence. rewrite Q. change (Q2Qc 0) with (Qc_of_Z 0). apply Qc_of_Z_lt. lia.
Qed.
Example C100_run_ex : forall fit1 fit2, exists st, set_reference fit1 fit2 NpNan Max {| fixedxy := None; movingxy := None |} before false = Ok st
  /\ snd (execute_alignkernel fit1 fit2 NpNan Max Translation st after) = Ok (Some (Qc_of_Z 2), Some (Qc_of_Z 1)).
Proof. intros. eexists. split; [vm_compute; reflexivity|]. vm_compute. reflexivity. Qed.
Example C100_centroid_ex : forall fit1 fit2, exists st, set_reference fit1 fit2 NpNan Centroid {| fixedxy := None; movingxy := None |} before false = Ok st
  /\ fixedxy st = Some (Some (1 + Q2Qc (3 # 13)), Some (1 + Q2Qc (3 # 13)))
  /\ snd (execute_alignkernel fit1 fit2 NpNan Centroid Translation st after) = Ok (Some (Qc_of_Z 2), Some (Qc_of_Z 1)).
Proof. intros. eexists. split; [vm_compute; reflexivity|]. split; vm_compute; [reflexivity|]. apply (f_equal Ok), f_equal2; apply (f_equal Some), Qc_is_canon; reflexivity. Qed.
Example C100_nothing_ex : forall i j v, ~ holds NpNan {| ny := 2; nx := 2; pix := fun _ _ => None |} i j v.
Proof. intros i j v (_ & _ & E & _). discriminate. Qed.
Example C100_integers_ex : ~ writable (Number (of_nat 7)) {| img := {| ny := 2; nx := 2; pix := fun i j => Some (of_nat (4 + i + j + i * j)) |}; integers := true |}.
Proof. intros [H|H]; [discriminate|]. apply (H (of_nat 7) 1 1)%nat; [reflexivity| |cbn; lia|cbn; lia|reflexivity]. intros Q. apply Qc_of_Z_inj in Q. lia. Qed.
