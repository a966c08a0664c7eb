(* C112: channels and colour scaling of the images of a scene (visualization/scene.py, process/scenevis.py:scene_globalscaling) *)
From Verif Require Import ScenescaleModel ScenescaleSpec ScenescaleProofs.
Local Open Scope list_scope.
Local Open Scope nat_scope.

(* There are one or three channels. *)
Theorem C112_channels : forall depth s s' l, channels depth s = (s', Ok l) -> List.length l = 1 \/ List.length l = 3.
Proof. exact channels_shape. Qed.
Print Assumptions C112_channels.
(* A list of channels is used in its order, the first three, nothing for what is missing. *)
Theorem C112_channels_list : forall depth l s' r j, channels depth (ChList l) = (s', Ok r) -> j < 3 -> nth j r None = nth j l None.
Proof. exact channels_list. Qed.
Print Assumptions C112_channels_list.
Theorem C112_channels_list_total : forall depth l, exists s' r, channels depth (ChList l) = (s', Ok r).
Proof. exact channels_list_total. Qed.
Print Assumptions C112_channels_list_total.
Example channels_example : channels 5 (ChList [Some 4%Z; Some 0%Z; None; Some 2%Z]) = (ChList [Some 4%Z; Some 0%Z; None; Some 2%Z], Ok [Some 4%Z; Some 0%Z; None]).
Proof. reflexivity. Qed.
(* By default the first channel or the first three; images with two channels fail. *)
Theorem C112_channels_default_refuted : forall depth, channels depth ChDefault = (ChDefault,
  if depth =? 1 then Ok [Some 0%Z] else if depth <? 3 then Err AttributeError else Ok [Some 0%Z; Some 1%Z; Some 2%Z]).
Proof. exact channels_default. Qed.
Print Assumptions C112_channels_default_refuted.
(* Reading the channels changes a setting of two channels; a tuple of two channels fails. *)
Theorem C112_channels_setting_refuted : forall depth l, List.length l = 0 \/ List.length l = 2 ->
  exists r, channels depth (ChList l) = (ChList r, Ok r) /\ r <> l /\ channels depth (ChList r) = (ChList r, Ok r) /\ channels depth (ChTuple l) = (ChTuple l, Err AttributeError).
Proof. exact channels_grow. Qed.
Print Assumptions C112_channels_setting_refuted.
Theorem C112_channels_tuple : forall depth l, List.length l <> 0 -> List.length l <> 2 -> snd (channels depth (ChTuple l)) = snd (channels depth (ChList l)).
Proof. exact channels_tuple. Qed.
Print Assumptions C112_channels_tuple.

(* The data of a channel is the raw data of that channel and zero when there is no channel. *)
Theorem C112_data : forall p cs d, data p cs = Ok d -> List.length d = List.length cs /\
  forall j, (nth_error cs j = Some None -> nth_error d j = Some 0%Qc) /\ (forall i, nth_error cs j = Some (Some i) -> exists v, get_data p i = Ok v /\ nth_error d j = Some v).
Proof. exact data_ok. Qed.
Print Assumptions C112_data.
(* A channel that does not exist is an error. *)
Theorem C112_data_error : forall p cs, (exists i, In (Some i) cs /\ get_data p i = Err IndexError) <-> data p cs = Err IndexError.
Proof. exact data_err. Qed.
Print Assumptions C112_data_error.
(* An image without channels has channel 0 only. *)
Theorem C112_data_plain : forall v i, get_data (Px2 v) i = if (i =? 0)%Z then Ok v else Err IndexError.
Proof. exact data_plain. Qed.
Print Assumptions C112_data_plain.
Example data_example : data (Px3 [Qc_of_Z 7; Qc_of_Z 8]) [Some 1%Z; None; Some (-2)%Z] = Ok [Qc_of_Z 8; 0%Qc; Qc_of_Z 7].
Proof. reflexivity. Qed.
(* A channel without label has the empty label. *)
Theorem C112_label : forall A (empty : A) labels i, label empty labels (Some i) = Some empty <-> ((exists e, py_get labels i = Err e) \/ py_get labels i = Ok empty).
Proof. exact @label_none. Qed.
Print Assumptions C112_label.

(* The limits of a scene: per channel the lowest minimum and the highest maximum of the images that have a number there. *)
Theorem C112_vmin : forall its lo hi c, vminmax its = Some (lo, hi) ->
  (nth_error lo c = Some None -> forall it x, In it its -> nth_error (fst it) c <> Some (Some x)) /\
  (forall a, nth_error lo c = Some (Some a) -> (exists it, In it its /\ nth_error (fst it) c = Some (Some a)) /\ forall it b, In it its -> nth_error (fst it) c = Some (Some b) -> (a <= b)%Qc) /\
  (forall it x, In it its -> nth_error (fst it) c = Some x -> exists r, nth_error lo c = Some r).
Proof. exact vmin_spec. Qed.
Print Assumptions C112_vmin.
Theorem C112_vmax : forall its lo hi c, vminmax its = Some (lo, hi) -> (forall it, In it its -> List.length (snd it) = List.length (fst it)) ->
  (nth_error hi c = Some None -> forall it x, In it its -> nth_error (snd it) c <> Some (Some x)) /\
  (forall a, nth_error hi c = Some (Some a) -> (exists it, In it its /\ nth_error (snd it) c = Some (Some a)) /\ forall it b, In it its -> nth_error (snd it) c = Some (Some b) -> (b <= a)%Qc) /\
  (forall it x, In it its -> nth_error (snd it) c = Some x -> exists r, nth_error hi c = Some r).
Proof. exact vmax_spec. Qed.
Print Assumptions C112_vmax.
Theorem C112_vminmax_none : forall its, vminmax its = None <-> its = [].
Proof. exact vminmax_none. Qed.
Print Assumptions C112_vminmax_none.
Example vminmax_example : vminmax [([Some (Qc_of_Z 3)], [Some (Qc_of_Z 5)]); ([Some (Qc_of_Z 1); None; Some (Qc_of_Z 2)], [Some (Qc_of_Z 4); None; Some (Qc_of_Z 9)])] =
  Some ([Some (Qc_of_Z 1); None; Some (Qc_of_Z 2)], [Some (Qc_of_Z 5); None; Some (Qc_of_Z 9)]).
Proof. reflexivity. Qed.

(* Scaling one image: the fractions are fractions of the range of the image, 0 for channels without. *)
Theorem C112_selfscale : forall vmin vmax pmin pmax c a b, nth_error vmin c = Some (Some a) -> nth_error vmax c = Some (Some b) ->
  nth_error (fst (selfscale vmin vmax pmin pmax)) c = Some (Some (a + (b - a) * match pmin with POne q => q | PMany l => nth c l 0 end)%Qc) /\
  nth_error (snd (selfscale vmin vmax pmin pmax)) c = Some (Some (a + (b - a) * match pmax with POne q => q | PMany l => nth c l 0 end)%Qc).
Proof. exact self. Qed.
Print Assumptions C112_selfscale.
Example selfscale_example : selfscale [Some (Qc_of_Z 2); None; Some (Qc_of_Z 0)] [Some (Qc_of_Z 4); None; Some (Qc_of_Z 8)] (POne (Q2Qc (1 # 4))) (PMany [Qc_of_Z 1]) =
  ([Some (Q2Qc (5 # 2)); None; Some (Qc_of_Z 2)], [Some (Qc_of_Z 4); None; Some (Qc_of_Z 0)]).
Proof. reflexivity. Qed.

(* Scaling all images with a lower fraction only: that fraction of the range of the scene, the upper limit is left to each image. *)
Theorem C112_global_low : forall vmin vmax old rlo lo hi, globalscaling (Some (vmin, vmax)) old (Some rlo) None None None = Ok (lo, hi) ->
  hi = None /\ exists l, lo = Some l /\ forall c a b, nth_error vmin c = Some (Some a) -> nth_error vmax c = Some (Some b) -> nth_error l c = Some (Some (a + (b - a) * fraction_of rlo c)%Qc).
Proof. exact global_low. Qed.
Print Assumptions C112_global_low.
(* With an upper fraction only it fails. *)
Theorem C112_global_high_refuted : forall vv old q alo ahi, globalscaling (Some vv) old None (Some (POne q)) alo ahi = Err TypeError.
Proof. exact global_high_number. Qed.
Print Assumptions C112_global_high_refuted.
Theorem C112_global_high_any_refuted : forall vv old rhi alo ahi, globalscaling (Some vv) old None (Some rhi) alo ahi = Err TypeError \/ globalscaling (Some vv) old None (Some rhi) alo ahi = Err ValueError.
Proof. exact global_high. Qed.
Print Assumptions C112_global_high_any_refuted.
(* With both, the upper limit is at the sum of the fractions and not at the upper fraction. *)
Theorem C112_global_refuted : forall vmin vmax old rlo rhi lo hi, globalscaling (Some (vmin, vmax)) old (Some rlo) (Some rhi) None None = Ok (lo, hi) ->
  exists l h, lo = Some l /\ hi = Some h /\ forall c a b, nth_error vmin c = Some (Some a) -> nth_error vmax c = Some (Some b) ->
    nth_error l c = Some (Some (a + (b - a) * fraction_of rlo c)%Qc) /\ nth_error h c = Some (Some (a + (b - a) * (fraction_of rlo c + fraction_of rhi c))%Qc).
Proof. exact global_both. Qed.
Print Assumptions C112_global_refuted.
Theorem C112_global_total : forall vmin vmax old p q, exists lo hi, globalscaling (Some (vmin, vmax)) old (Some (POne p)) (Some (POne q)) None None = Ok (Some lo, Some hi).
Proof. exact global_both_total. Qed.
Print Assumptions C112_global_total.
Example global_example : globalscaling (Some ([Some (Qc_of_Z 0); Some (Qc_of_Z 2)], [Some (Qc_of_Z 4); Some (Qc_of_Z 4)])) (None, None) (Some (POne (Q2Qc (1 # 2)))) (Some (PMany [Qc_of_Z 1; Qc_of_Z 0])) None None =
  Ok (Some [Some (Qc_of_Z 2); Some (Qc_of_Z 3)], Some [Some (Qc_of_Z 6); Some (Qc_of_Z 3)]).
Proof. reflexivity. Qed.
(* Absolute limits replace both limits, also when only one is given. *)
Theorem C112_absolute : forall vv old rlo rhi alo ahi s, alo <> None \/ ahi <> None -> globalscaling vv old rlo rhi alo ahi = Ok s -> s = (alo, ahi).
Proof. exact global_absolute. Qed.
Print Assumptions C112_absolute.
Theorem C112_unscaled : forall vv old, globalscaling vv old None None None None = Ok old.
Proof. exact global_none. Qed.
Print Assumptions C112_unscaled.
(* A scene without images cannot be scaled by fractions. *)
Theorem C112_global_empty : forall old rlo rhi alo ahi, rlo <> None \/ rhi <> None -> globalscaling None old rlo rhi alo ahi = Err TypeError.
Proof. exact global_empty. Qed.
Print Assumptions C112_global_empty.
