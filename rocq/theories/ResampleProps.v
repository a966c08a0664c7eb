(* C101: resampling a map on encoder positions (process/nxresample.py) *)
From Coq Require Import Lia.
From Verif Require Import Base QcTac ZList AxisModel AxisSpec ResampleModel ResampleSpec ResampleProofs.
Local Open Scope Qc_scope.

(* Without a given offset, the expected encoder positions are centred on the measured ones, as many points are added (or removed) at both sides, the grid of motor
   positions is kept, every encoder position is motor position * resolution + offset, and the first and last one are the closest that include the limits v and w. *)
Theorem C101_centred_partial : forall position s d n r lines crop v w, scanned position s d n r lines -> limits lines crop (d * r) v w -> 0 < (w - v) / (d * r) + Qc_of_Z (n - 1) ->
  exists k, let o := (v + w - (s + (s + Qc_of_Z (n - 1) * d)) * r) / Qc_of_Z 2 in
    covers ((s - Qc_of_Z k * d) * r + o) v (- (d * r)) /\ covers ((s + Qc_of_Z (n - 1 + k) * d) * r + o) w (d * r) /\
    ((n + 2 * k <= 0)%Z /\ encoder position lines r NoOffset crop = Ok (Skipped position) \/
     (0 < n + 2 * k)%Z /\ exists p e, encoder position lines r NoOffset crop = Ok (Resampled p e o) /\
       progression (a_values p) (s - Qc_of_Z k * d) d (n + 2 * k) /\ a_values e = map (fun x => x * r + o) (a_values p)).
Proof. exact centred. Qed.
Print Assumptions C101_centred_partial.
(* With a given offset (a quantity) the same holds, not centred; with a plain number, as documented, the result is AttributeError. *)
Theorem C101_offset_partial : forall position s d n r lines crop v w off o, scanned position s d n r lines -> limits lines crop (d * r) v w -> off = Quantity_ o \/ off = Plain_ o ->
  (v - ((s + Qc_of_Z (n - 1) * d) * r + o)) / (d * r) < 0 ->
  exists k m, covers ((s - Qc_of_Z k * d) * r + o) v (- (d * r)) /\ covers ((s + Qc_of_Z (m - k - 1) * d) * r + o) w (d * r) /\
    ((m <= 0)%Z /\ encoder position lines r off crop = Ok (Skipped position) \/
     (0 < m)%Z /\ exists p e, encoder position lines r off crop = (match off with Plain_ _ => Err AttributeError | _ => Ok (Resampled p e o) end) /\
       progression (a_values p) (s - Qc_of_Z k * d) d m /\ a_values e = map (fun x => x * r + o) (a_values p)).
Proof. exact fixed_offset. Qed.
Print Assumptions C101_offset_partial.
(* Without crop no line begins before or ends after the new encoder positions; with crop the new encoder positions, but the first and the last one, are within
   every line. *)
Theorem C101_range_partial : forall position s d n r lines crop v w off p e o, scanned position s d n r lines -> limits lines crop (d * r) v w ->
  match given off with None => 0 < (w - v) / (d * r) + Qc_of_Z (n - 1) | Some o => (v - ((s + Qc_of_Z (n - 1) * d) * r + o)) / (d * r) < 0 end ->
  encoder position lines r off crop = Ok (Resampled p e o) ->
  if crop then forall i q x y, point (a_values e) i = Some q -> (0 < i < plen (a_values e) - 1)%Z -> begins lines x -> ends lines y -> upto (d * r) x q /\ upto (d * r) q y
  else exists q0 q1, point (a_values e) 0 = Some q0 /\ point (a_values e) (plen (a_values e) - 1) = Some q1 /\ forall x y, begins lines x -> ends lines y -> upto (d * r) q0 x /\ upto (d * r) y q1.
Proof. exact range. Qed.
Print Assumptions C101_range_partial.
(* When all lines are where they are expected, up to an offset, that offset is found and the axis does not change, whether cropped or not. *)
Theorem C101_undisturbed : forall position s d n r lines crop o, scanned position s d n r lines ->
  (forall x, begins lines x -> x = s * r + o) -> (forall y, ends lines y -> y = (s + Qc_of_Z (n - 1) * d) * r + o) ->
  exists p e, encoder position lines r NoOffset crop = Ok (Resampled p e o) /\ a_values p = a_values position /\ a_values e = map (fun x => x * r + o) (a_values position).
Proof. exact undisturbed. Qed.
Print Assumptions C101_undisturbed.
(* Every pixel of the resampled map belongs to exactly one of the pieces that are processed, and no piece is processed twice. *)
Theorem C101_pieces : forall shape encoders, length shape = length encoders ->
  NoDup (process_indices shape encoders) /\
  forall i, within (resampled_shape shape encoders) i -> exists ix, In ix (process_indices shape encoders) /\ addressed ix i /\ forall ix', In ix' (process_indices shape encoders) -> addressed ix' i -> ix' = ix.
Proof. exact pieces. Qed.
Print Assumptions C101_pieces.
(* refuted: with crop, the first position can be outside of a line *)
Theorem C101_crop_refuted : exists p e o q x, encoder axis04 [qz [3; 13; 23; 33]%Z; qz [0; 10; 20; 30]%Z] 1 NoOffset true = Ok (Resampled p e o) /\
  point (a_values e) 0 = Some q /\ begins [qz [3; 13; 23; 33]%Z; qz [0; 10; 20; 30]%Z] x /\ q < x.
Proof. exact cropped_outside. Qed.
Print Assumptions C101_crop_refuted.
(* refuted: an offset that is a plain number, as documented, is an error wherever the same offset as a quantity works *)
Theorem C101_plain_refuted : forall position lines r o crop p e o', encoder position lines r (Quantity_ o) crop = Ok (Resampled p e o') -> encoder position lines r (Plain_ o) crop = Err AttributeError.
Proof. exact plain_offset. Qed.
Print Assumptions C101_plain_refuted.
(* refuted: an axis of one point is not skipped or copied but an error *)
Theorem C101_single_refuted : forall position x lines r off crop, a_values position = [x] -> exists er, encoder position lines r off crop = Err er.
Proof. exact single. Qed.
Print Assumptions C101_single_refuted.

(* Nothing is resampled when no line was measured: a ValueError. *)
Theorem C101_nothing position resolution off crop : (forall increasing, measured [] crop increasing = Err ValueError) /\
  forall o, encoder position [] resolution off crop <> Ok o.
Proof. exact (nothing_measured position resolution off crop). Qed.
Print Assumptions C101_nothing.

(* ---- cases: an axis of four points and two lines that were measured ---- *)
Example C101_scanned_ex : scanned axis04 0 (Qc_of_Z 10) 4 (Qc_of_Z 2) [qz [7; 26; 44; 67]%Z; qz [5; 25; 48; 70]%Z].
Proof.
  split; [split; [reflexivity|]|split; [lia|split; [|split; [|split; [discriminate|]]]]].
  - intros i Hi. assert (i = 0 \/ i = 1 \/ i = 2 \/ i = 3)%Z as [-> |[-> |[-> | ->]]] by lia; vm_compute; apply (f_equal Some), Qc_is_canon; reflexivity.
  - intros H. apply (f_equal this) in H. discriminate.
  - intros H. apply (f_equal this) in H. discriminate.
  - intros l [<-|[<-|[]]]; discriminate.
Qed.
Example C101_limits_ex : limits [qz [7; 26; 44; 67]%Z; qz [5; 25; 48; 70]%Z] false (Qc_of_Z 10 * Qc_of_Z 2) (Qc_of_Z 5) (Qc_of_Z 70).
Proof.
  split; [exists (qz [5; 25; 48; 70]%Z); split; [now right; left|reflexivity]|]. split; [exists (qz [5; 25; 48; 70]%Z); split; [now right; left|reflexivity]|].
  split; intros x (l & [<-|[<-|[]]] & E); (assert (Some x = Some _) as Q by (symmetry; exact E)); match type of Q with _ = Some ?q => assert (x = q) as -> by congruence end; vm_compute; discriminate.
Qed.
Example C101_run_ex : exists p e, encoder axis04 [qz [7; 26; 44; 67]%Z; qz [5; 25; 48; 70]%Z] (Qc_of_Z 2) NoOffset false = Ok (Resampled p e (Q2Qc (15 # 2)))
  /\ map this (a_values p) = map inject_Z [-10; 0; 10; 20; 30; 40]%Z /\ map this (a_values e) = map (fun z => Qmake z 2) [-25; 15; 55; 95; 135; 175]%Z.
Proof.
  eexists. eexists. split; [vm_compute; apply (f_equal Ok); apply f_equal3; [reflexivity|reflexivity|]; apply Qc_is_canon; reflexivity|]. split; vm_compute; reflexivity.
Qed.
Example C101_plain_ex : encoder axis04 [qz [7; 26; 44; 67]%Z; qz [5; 25; 48; 70]%Z] (Qc_of_Z 2) (Plain_ (Qc_of_Z 7)) false = Err AttributeError.
Proof. vm_compute. reflexivity. Qed.
Example C101_pieces_ex : process_indices [2; 4; 2]%nat [None; Some 6%nat; None] = [[At 0; All; At 0]; [At 0; All; At 1]; [At 1; All; At 0]; [At 1; All; At 1]] /\ resampled_shape [2; 4; 2]%nat [None; Some 6%nat; None] = [2; 6; 2]%nat.
Proof. split; reflexivity. Qed.
Example C101_nothing_ex : encoder axis04 [] (Qc_of_Z 2) (Plain_ (Qc_of_Z 7)) false = Err ValueError.
Proof. vm_compute. reflexivity. Qed.
