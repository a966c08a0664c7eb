(* C108: full-field images are dark subtracted sums over the exposure time, relative to flat images. *)
From Verif Require Import FullfieldModel FullfieldSpec FullfieldProofs.
From Verif Require AxisModel.
Local Open Scope list_scope.
Local Open Scope nat_scope.

(* ---- rebinning and regions ---- *)
Theorem C108_rebin : forall img r0 r1, 0 < r0 -> 0 < r1 ->
  exists out, execrebin img (r0, r1) = Ok out /\ rows out = rows img / r0 /\ cols out = cols img / r1 /\
    forall i j, j < cols out -> px out i j = Sum r0 (fun a => Sum r1 (fun b => px img (i * r0 + a) (j * r1 + b))).
Proof. exact rebin_ok. Qed.
Print Assumptions C108_rebin.
Theorem C108_rebin_conserves : forall img r0 r1 out, 0 < r0 -> 0 < r1 -> execrebin img (r0, r1) = Ok out ->
  Sum (rows out) (fun i => Sum (cols out) (fun j => px out i j)) =
  Sum (rows img / r0 * r0) (fun i => Sum (cols img / r1 * r1) (fun j => px img i j)).
Proof. exact rebin_conserves. Qed.
Print Assumptions C108_rebin_conserves.
Theorem C108_rebin_zero : forall img r, fst r = 0 \/ snd r = 0 -> execrebin img r = Err ZeroDivisionError.
Proof. exact rebin_zero. Qed.
Print Assumptions C108_rebin_zero.
Theorem C108_raw : forall p img, 0 < fst (p_rebin p) -> 0 < snd (p_rebin p) ->
  exists out i0 ni j0 nj, procraw p img = Ok out /\ region (p_roi p) img i0 ni j0 nj /\
    rows out = ni / fst (p_rebin p) /\ cols out = nj / snd (p_rebin p) /\
    forall i j, j < cols out -> px out i j =
      Sum (fst (p_rebin p)) (fun a => Sum (snd (p_rebin p)) (fun b => px img (i0 + (i * fst (p_rebin p) + a)) (j0 + (j * snd (p_rebin p) + b)))).
Proof. exact procraw_ok. Qed.
Print Assumptions C108_raw.
Definition picture (r c : nat) : image := Image r c (fun i j => Qc_of_Z (Z.of_nat (10 * i + j))).
Definition table (img : image) : list (list Z) := map (fun i => map (fun j => Qnum (this (px img i j))) (seq 0 (cols img))) (seq 0 (rows img)).
Example C108_rebin_ex : match execrebin (picture 3 5) (2, 2) with Ok o => table o | Err _ => [] end = [[22; 30]]%Z.
Proof. vm_compute. reflexivity. Qed.
Definition region_params : params := Params (Some ((Some 1, None), (Some (-3), Some (-1)))%Z) (1, 1) "1" 0%Qc 0%Qc false false false [] [].
Example C108_raw_ex : match procraw region_params (picture 3 5) with Ok o => table o | Err _ => [] end = [[12; 13]; [22; 23]]%Z.
Proof. vm_compute. reflexivity. Qed.

(* ---- dark images and intensities ---- *)
Theorem C108_intensity : forall number p r c d fs, prepared p d -> shaped r c d -> measurable number p r c d fs ->
  exists l out, darklibrary p [] (map fst d) = Ok l /\ normalized number p l (map fst fs) = Ok (Some out) /\ rows out = r /\ cols out = c /\
    forall i j, (px out i j * duration number p fs)%Qc = SumOf (fun x => px (snd x) i j - frames x * dark_rate number p d (time_of p x) i j)%Qc fs.
Proof. exact intensity'. Qed.
Print Assumptions C108_intensity.
Theorem C108_recovered : forall number p r c d fs (I : nat -> nat -> Qc), prepared p d -> shaped r c d -> measurable number p r c d fs ->
  (forall x i j, In x fs -> px (snd x) i j = (frames x * (number (time_of p x) * I i j + dark_rate number p d (time_of p x) i j))%Qc) ->
  exists l out, darklibrary p [] (map fst d) = Ok l /\ normalized number p l (map fst fs) = Ok (Some out) /\ rows out = r /\ cols out = c /\
    forall i j, px out i j = I i j.
Proof. exact recovered'. Qed.
Print Assumptions C108_recovered.
Theorem C108_no_image : forall number p l, normalized number p l [] = Err TypeError.
Proof. exact no_image. Qed.
Print Assumptions C108_no_image.
Theorem C108_not_exposed : forall number p r c d fs, prepared p d -> shaped r c d -> prepared p fs -> shaped r c fs ->
  Forall (fun x => has_frames p d (time_of p x)) fs -> fs <> [] -> duration number p fs = 0%Qc ->
  exists l, darklibrary p [] (map fst d) = Ok l /\ normalized number p l (map fst fs) = Ok None.
Proof. exact not_exposed. Qed.
Print Assumptions C108_not_exposed.
(* darks and data with several frames, two exposures of the same sample *)
Definition seconds (s : string) : Qc := if String.eqb s "2" then Qc_of_Z 2 else 1%Qc.
Definition flatimage (v : Z) : image := Image 1 2 (fun _ j => Qc_of_Z (v + Z.of_nat j)).
Definition exposure (name t k : string) (n : Z) (img : image) : file := File name img (Some t) (Some (Qc_of_Z n)) (Some k) None.
Definition sum_params : params := Params None (1, 1) "1" (Qc_of_Z 3) (Qc_of_Z 4) false false true [] [].
Definition dark_files : list file := [exposure "d1" "2" "7" 2 (flatimage 10); exposure "d2" "2" "7" 1 (flatimage 5)].
Definition sample_files : list file := [exposure "s1" "2" "7" 1 (flatimage 20); exposure "s2" "1" "7" 2 (flatimage 40)].
Example C108_intensity_ex : map (fun f => procraw sum_params (f_data f)) (dark_files ++ sample_files) = map (fun f => Ok (f_data f)) (dark_files ++ sample_files) /\
  match darklibrary sum_params [] dark_files with
  | Ok l => match normalized seconds sum_params l sample_files with
            | Ok (Some o) => map (fun j => this (px o 0 j)) (seq 0 (cols o))
            | _ => [] end
  | Err _ => [] end = [41 # 4; 127 # 12]%Q.
Proof. split; [reflexivity|]. vm_compute. reflexivity. Qed.

(* ---- axes ---- *)
Theorem C108_axis : forall o n d, 0 < d -> (0 <= n)%Z -> exists l, axis_values o n None d = Ok l /\ List.length l = Z.to_nat n / d /\
  forall i x, nth_error l i = Some x -> (Qc_of_Z (Z.of_nat d) * x)%Qc = Sum d (fun k => Qc_of_Z (o + Z.of_nat i * Z.of_nat d + Z.of_nat k)).
Proof. exact axis_all. Qed.
Print Assumptions C108_axis.
Theorem C108_axis_region : forall o n a b d i0 ni, 0 < d -> (0 <= n)%Z -> within n a -> within n b -> takes (Z.to_nat n) (a, b) i0 ni -> 0 < ni ->
  exists l, axis_values o n (Some (a, b)) d = Ok l /\ List.length l = ni / d /\
  forall i x, nth_error l i = Some x -> (Qc_of_Z (Z.of_nat d) * x)%Qc = Sum d (fun k => Qc_of_Z (o + Z.of_nat i0 + Z.of_nat i * Z.of_nat d + Z.of_nat k)).
Proof. exact axis_part. Qed.
Print Assumptions C108_axis_region.
Theorem C108_axis_zero : forall o n roi, axis_values o n roi 0 = Err ZeroDivisionError.
Proof. exact axis_zero. Qed.
Print Assumptions C108_axis_zero.
Theorem C108_axes : forall p y0 x0 ny nx row col, axesvalues p [y0; x0; ny; nx] = Ok (row, col) <->
  axis_values y0 ny (option_map fst (p_roi p)) (fst (p_rebin p)) = Ok row /\ axis_values x0 nx (option_map snd (p_roi p)) (snd (p_rebin p)) = Ok col.
Proof. exact axes_ok. Qed.
Print Assumptions C108_axes.
(* a region that ends outside the image: more values than columns *)
Theorem C108_axis_outside_refuted : forall o n a b, (0 <= a <= n)%Z -> (n < b)%Z -> exists l, axis_values o n (Some (Some a, Some b)) 1 = Ok l /\
  takes (Z.to_nat n) (Some a, Some b) (Z.to_nat a) (Z.to_nat (n - a)) /\ List.length l = Z.to_nat (b - a).
Proof. exact axis_outside. Qed.
Print Assumptions C108_axis_outside_refuted.
Theorem C108_axis_reversed : forall o n a b d, 0 < d -> (0 <= b < a)%Z -> axis_values o n (Some (Some a, Some b)) d = Err ValueError.
Proof. exact axis_reversed. Qed.
Print Assumptions C108_axis_reversed.
Example C108_axis_ex : within 10 (Some (-8)%Z) /\ within 10 None /\ takes 10 (Some (-8)%Z, None) 2 8 /\
  match axis_values 100 10 (Some (Some (-8)%Z, None)) 3 with Ok l => map this l | Err _ => [] end = [103 # 1; 106 # 1]%Q.
Proof. split; [cbn; lia|]. split; [exact Logic.I|]. split; [split; [reflexivity|lia]|]. vm_compute. reflexivity. Qed.

(* ---- the region in the header ---- *)
Theorem C108_header_region : forall f x y nx ny l, f_roi f = Some (x :: y :: nx :: ny :: l) -> getroi f = Ok [y; x; ny; nx].
Proof. exact getroi_label. Qed.
Print Assumptions C108_header_region.
Theorem C108_no_header_region : forall f, f_roi f = None -> getroi f = Ok [0%Z; 0%Z; Z.of_nat (rows (f_data f)); Z.of_nat (cols (f_data f))].
Proof. exact getroi_none. Qed.
Print Assumptions C108_no_header_region.
(* an incomplete region is an error instead of the dimensions of the image *)
Theorem C108_header_region_refuted : forall f l, f_roi f = Some l -> List.length l < 4 -> getroi f = Err IndexError.
Proof. exact getroi_short. Qed.
Print Assumptions C108_header_region_refuted.
Example C108_header_region_ex : getroi (File "f" (picture 3 5) None None None (Some [7; 8; 100; 200]%Z)) = Ok [8; 7; 200; 100]%Z.
Proof. reflexivity. Qed.

(* ---- libraries ---- *)
Theorem C108_library : forall number p ds fs d, dataflatlibrary number p ds fs = Ok d ->
  exists x roi, hd_error (labelled (with_values (p_stacks p) ds)) = Some x /\ getroi (fst x) = Ok roi /\ axesvalues p roi = Ok (l_axes d) /\
  let D k := group k roi (with_values (p_stacks p) ds) in
  let F k := group k roi (with_values (p_flatstacks p) fs) in
  (forall k, lookup String.eqb k (l_data d) = nonempty (D k)) /\
  (p_beforeafter p = false -> l_flat2 d = None /\ forall k, lookup String.eqb k (l_flat1 d) = match D k with [] => None | _ => Some (F k) end) /\
  (p_beforeafter p = true -> exists g, l_flat2 d = Some g /\ forall k, match D k with
     | [] => lookup String.eqb k (l_flat1 d) = None /\ lookup String.eqb k g = None
     | _ => exists a b, lookup String.eqb k (l_flat1 d) = Some a /\ lookup String.eqb k g = Some b /\ Permutation (a ++ b) (F k) /\
         StronglySorted (fun u v => String.leb (f_name u) (f_name v) = true) (a ++ b) /\
         List.length a = (if List.length (F k) =? 1 then 1 else List.length (F k) / 2) end) /\
  NoDup (l_order d) /\ StronglySorted (fun a b => (number a <= number b)%Qc) (l_order d) /\ (forall k, In k (l_order d) <-> D k <> []).
Proof. exact library_ok. Qed.
Print Assumptions C108_library.
Theorem C108_no_data : forall number p ds fs d, labelled (with_values (p_stacks p) ds) = [] -> dataflatlibrary number p ds fs <> Ok d.
Proof. exact no_data. Qed.
Print Assumptions C108_no_data.
Theorem C108_no_data_error : forall number p ds, labelled (with_values (p_stacks p) ds) = [] -> dataflatlibrary number p ds [] = Err OSError.
Proof. exact no_data_error. Qed.
Print Assumptions C108_no_data_error.
Definition stack_files : list file :=
  [exposure "b1" "1" "2" 1 (flatimage 20); exposure "b2" "1" "1" 1 (flatimage 40); exposure "b3" "1" "2" 1 (picture 3 3); exposure "b4" "1" "2" 1 (flatimage 50)].
Definition flat_files : list file :=
  [exposure "g3" "1" "2" 1 (flatimage 20); exposure "g1" "1" "2" 1 (flatimage 40); exposure "g2" "1" "1" 1 (flatimage 50); exposure "g4" "1" "5" 1 (flatimage 50)].
Definition names (g : groups) := map (fun x => (fst x, map f_name (snd x))) g.
Definition twice_params : params := Params None (1, 1) "1" (Qc_of_Z 3) (Qc_of_Z 4) true false true [] [].
Example C108_library_ex : match dataflatlibrary seconds twice_params stack_files flat_files with
  | Ok d => Some (names (l_data d), names (l_flat1 d), option_map names (l_flat2 d), l_order d) | Err _ => None end =
  Some ([("2", ["b1"; "b4"]); ("1", ["b2"])], [("2", ["g1"]); ("1", ["g2"])], Some [("2", ["g3"]); ("1", [])], ["1"; "2"])%string.
Proof. vm_compute. reflexivity. Qed.

(* ---- slices ---- *)
Theorem C108_normalized : forall number p r c dk l d k a b b2, prepared p dk -> shaped r c dk -> darklibrary p [] (map fst dk) = Ok l ->
  lookup String.eqb k (l_data d) = Some (map fst a) -> lookup String.eqb k (l_flat1 d) = Some (map fst b) ->
  match b2 with None => l_flat2 d = None | Some b2 => exists g, l_flat2 d = Some g /\ lookup String.eqb k g = Some (map fst b2) /\ measurable number p r c dk b2 end ->
  measurable number p r c dk a -> measurable number p r c dk b -> p_normalize p = true ->
  exists out, one_slice number p l d k = Ok (Some out) /\ o_rows out = r /\ o_cols out = c /\
    forall i j, o_px out i j = (let f := flat_of number p dk b b2 i j in if Qc_eqb f 0 then None else Some (rate number p dk a i j / f)%Qc).
Proof. exact slice_normalized. Qed.
Print Assumptions C108_normalized.
Theorem C108_not_normalized : forall number p r c dk l d k a, prepared p dk -> shaped r c dk -> darklibrary p [] (map fst dk) = Ok l ->
  lookup String.eqb k (l_data d) = Some (map fst a) -> measurable number p r c dk a -> p_normalize p = false -> p_keepflat p = false ->
  exists out, one_slice number p l d k = Ok (Some out) /\ o_rows out = r /\ o_cols out = c /\ forall i j, o_px out i j = Some (rate number p dk a i j).
Proof. exact slice_plain. Qed.
Print Assumptions C108_not_normalized.
Theorem C108_order : forall number p dks ds fs out, fullfield number p dks ds fs = Ok out ->
  exists l d, darklibrary p [] dks = Ok l /\ dataflatlibrary number p ds fs = Ok d /\ Forall2 (fun k o => one_slice number p l d k = Ok o) (l_order d) out.
Proof. exact slices_in_order. Qed.
Print Assumptions C108_order.
(* a key without flat images, or with one when flats are taken before and after, stops everything *)
Theorem C108_flats_refuted : forall number p dks ds fs out x roi, fullfield number p dks ds fs = Ok out -> p_normalize p = true \/ p_keepflat p = true ->
  hd_error (labelled (with_values (p_stacks p) ds)) = Some x -> getroi (fst x) = Ok roi ->
  forall k, group k roi (with_values (p_stacks p) ds) <> [] ->
    (if p_beforeafter p then 2 else 1) <= List.length (group k roi (with_values (p_flatstacks p) fs)).
Proof. exact needs_flats. Qed.
Print Assumptions C108_flats_refuted.
Theorem C108_no_flat : forall number p l d k a img, lookup String.eqb k (l_data d) = Some a -> normalized number p l a = Ok img ->
  p_normalize p = true \/ p_keepflat p = true ->
  (lookup String.eqb k (l_flat1 d) = Some [] -> one_slice number p l d k = Err TypeError) /\
  (forall f f' g, lookup String.eqb k (l_flat1 d) = Some f -> normalized number p l f = Ok f' -> l_flat2 d = Some g -> lookup String.eqb k g = Some [] -> one_slice number p l d k = Err TypeError).
Proof. exact slice_noflat. Qed.
Print Assumptions C108_no_flat.
Definition transmissions (r : result (list (option slice_out))) : result (list (list Q)) :=
  match r with
  | Err e => Err e
  | Ok l => Ok (map (fun o => match o with None => [] | Some o => map (fun j => match o_px o 0 j with Some x => this x | None => 0%Q end) (seq 0 (o_cols o)) end) l)
  end.
Example C108_slices_ex :
  transmissions (fullfield seconds sum_params dark_files stack_files flat_files) = Ok [[33 # 43; 17 # 22]; [28 # 23; 29 # 24]]%Q /\
  transmissions (fullfield seconds twice_params dark_files stack_files flat_files) = Err TypeError.
Proof. split; vm_compute; reflexivity. Qed.
