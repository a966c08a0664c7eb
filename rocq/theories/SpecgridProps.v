(* C91: the positions of the pixels of a scan. *)
From Coq Require Import String QArith Qcanon.
From Verif Require Import SpecgridModel SpecgridSpec ScanProofs ScanMain SpecgridProofs.

(* the pixels of a continuous line are the cells that fill the interval, each at its centre *)
Theorem C91_zapline_values start stop n : (0 < n)%Z -> exists l, zapline_values start stop n = Ok l /\ centres start stop (Z.to_nat n) l.
Proof. exact (zapline_centres start stop n). Qed.
Print Assumptions C91_zapline_values.
Example C91_zapline_values_case : exists a b, zapline_values (Qc_of_Z 0) (Qc_of_Z 4) 2 = Ok [a; b] /\ a = Qc_of_Z 1 /\ b = Qc_of_Z 3.
Proof. do 2 eexists. split; [reflexivity|]. split; apply Qc_is_canon; vm_compute; reflexivity. Qed.

(* the range and the size of the line are those of these centres *)
Theorem C91_zapline_range start stop n l a b : (0 < n)%Z -> zapline_values start stop n = Ok l -> nth_error l 0 = Some a -> nth_error l (length l - 1) = Some b ->
  zapline_range start stop n = Ok [a; b] /\ zapline_scansize start stop n = Ok (b - a)%Qc.
Proof. exact (zapline_ends start stop n l a b). Qed.
Print Assumptions C91_zapline_range.

(* the points of a step scan are equally spaced from start to end *)
Theorem C91_ascan_values start stop n : (0 < n)%Z -> exists l, ascan_values start stop n = Ok l /\ steps start stop (Z.to_nat n) l.
Proof. exact (ascan_steps start stop n). Qed.
Print Assumptions C91_ascan_values.
Theorem C91_ascan_range start stop n l a b : (0 < n)%Z -> ascan_values start stop n = Ok l -> nth_error l 0 = Some a -> nth_error l (length l - 1) = Some b ->
  ascan_range start stop n = Ok [a; b] /\ ascan_scansize start stop n = Ok (b - a)%Qc.
Proof. exact (ascan_ends start stop n l a b). Qed.
Print Assumptions C91_ascan_range.
Theorem C91_ascan_pixelsize start stop n l i a b : (0 < n)%Z -> ascan_values start stop n = Ok l -> nth_error l i = Some a -> nth_error l (S i) = Some b ->
  ascan_pixelsize start stop n = Ok (b - a)%Qc.
Proof. exact (ascan_spacing start stop n l i a b). Qed.
Print Assumptions C91_ascan_pixelsize.
Example C91_ascan_values_case : exists a b c, ascan_values (Qc_of_Z 1) (Qc_of_Z 5) 2 = Ok [a; b; c] /\ a = Qc_of_Z 1 /\ b = Qc_of_Z 3 /\ c = Qc_of_Z 5.
Proof. do 3 eexists. split; [reflexivity|]. split; [|split]; apply Qc_is_canon; vm_compute; reflexivity. Qed.

(* without pixels or steps nothing is computed *)
Theorem C91_no_pixels start stop : zapline_values start stop 0 = Err ZeroDivisionError /\ zapline_range start stop 0 = Err ZeroDivisionError /\
  zapline_scansize start stop 0 = Err ZeroDivisionError /\ ascan_values start stop 0 = Err ZeroDivisionError /\ ascan_pixelsize start stop 0 = Err ZeroDivisionError.
Proof. exact (no_pixels start stop). Qed.
Print Assumptions C91_no_pixels.

(* the pixel size of a line is never the distance of its pixels, and a line of one pixel has none *)
Theorem C91_zapline_pixelsize_refuted start stop n l i a b p : (1 < n)%Z -> start <> stop -> zapline_values start stop n = Ok l ->
  nth_error l i = Some a -> nth_error l (S i) = Some b -> zapline_pixelsize start stop n = Ok p -> p <> (b - a)%Qc.
Proof. exact (zapline_spacing start stop n l i a b p). Qed.
Print Assumptions C91_zapline_pixelsize_refuted.
Example C91_zapline_pixelsize_case : exists a b p, zapline_values (Qc_of_Z 0) (Qc_of_Z 4) 2 = Ok [a; b] /\ zapline_pixelsize (Qc_of_Z 0) (Qc_of_Z 4) 2 = Ok p /\ p = Qc_of_Z 4.
Proof. do 3 eexists. split; [reflexivity|]. split; [reflexivity|]. apply Qc_is_canon; vm_compute; reflexivity. Qed.
Theorem C91_one_pixel_refuted start stop : zapline_pixelsize start stop 1 = Err ZeroDivisionError /\ exists x, zapline_values start stop 1 = Ok [x].
Proof. exact (zapline_one_pixel start stop). Qed.
Print Assumptions C91_one_pixel_refuted.

(* the dimensions of a zapimage: the fast motor from the first to the last pixel centre, the slow motor from start to end, all others at their position *)
Theorem C91_dimensions_partial ws tail cmd mnames motors values : laid ws tail cmd -> named ws cmd -> ends tail -> forall mf sf ef nf ms ss es ns t,
  (forall m, In m motors -> exists v, held mnames values (lower m) v) ->
  says ws (area (txt "zapimage") mf sf ef (txt "npixelsfast") nf ms ss es ns t) -> (0 < nf)%Z ->
  exists ret l a b, getdimensions mnames values cmd motors = Ok ret /\
    centres sf ef (Z.to_nat nf) l /\ nth_error l 0 = Some a /\ nth_error l (Z.to_nat nf - 1) = Some b /\
    (forall m, In m motors -> lower m = ms -> lookup chars_eqb ms ret = Some (Range [ss; es])) /\
    (forall m, In m motors -> lower m = mf -> mf <> ms -> lookup chars_eqb mf ret = Some (Range [a; b])) /\
    (forall m v, In m motors -> lower m <> mf -> lower m <> ms -> held mnames values (lower m) v -> lookup chars_eqb (lower m) ret = Some (At v)).
Proof. exact (dimensions_zapimage ws tail cmd mnames motors values). Qed.
Print Assumptions C91_dimensions_partial.
Example C91_dimensions_case :
  says w_zapimage (area (txt "zapimage") (txt "sampy") (Qc_of_Z 0) (Qc_of_Z 1) (txt "npixelsfast") 10 (txt "sampz") (Qc_of_Z 0) (Qc_of_Z 5) 4 (FMs (Qc_of_Z 50))) /\
  laid w_zapimage [] (txt "zapimage sampy 0 1 10 sampz 0 5 4 50") /\ named w_zapimage (txt "zapimage sampy 0 1 10 sampz 0 5 4 50") /\ ends [] /\
  (forall m, In m [txt "Sampy"; txt "other"; txt "sampz"] -> exists v, held [txt "sampz"; txt "OTHER"; txt "Sampy"] [Qc_of_Z 3; Qc_of_Z 4; Qc_of_Z 5] (lower m) v).
Proof. exact (conj w_zapimage_says (conj w_zapimage_laid (conj w_zapimage_named (conj I w_zapimage_at)))). Qed.

(* the dimensions of step scans and meshes are never found *)
Theorem C91_ascan_dimensions_refuted ws tail cmd mnames motors values : laid ws tail cmd -> named ws cmd -> ends tail -> forall mf sf ef nf t m,
  (forall m, In m motors -> exists v, held mnames values (lower m) v) ->
  says ws (line (txt "ascan") mf sf ef (txt "nstepsfast") nf t) -> In m motors -> lower m = mf -> getdimensions mnames values cmd motors = Err KeyError.
Proof. exact (dimensions_ascan ws tail cmd mnames motors values). Qed.
Print Assumptions C91_ascan_dimensions_refuted.
Theorem C91_mesh_dimensions_refuted ws tail cmd mnames motors values : laid ws tail cmd -> named ws cmd -> ends tail -> forall mf sf ef nf ms ss es ns t m,
  (forall m, In m motors -> exists v, held mnames values (lower m) v) ->
  says ws (area (txt "mesh") mf sf ef (txt "nstepsfast") nf ms ss es ns t) -> In m motors -> lower m = mf ->
  getdimensions mnames values cmd motors = Err KeyError.
Proof. exact (dimensions_mesh ws tail cmd mnames motors values). Qed.
Print Assumptions C91_mesh_dimensions_refuted.
Example C91_mesh_dimensions_case : getdimensions [txt "samy"] [Qc_of_Z 3] (txt "mesh samy 0 1 10 samz 0 1 10 1") [txt "samy"] = Err KeyError /\
  getdimensions [txt "samy"] [Qc_of_Z 3] (txt "ascan samy 0 1 10 1") [txt "samy"] = Err KeyError.
Proof. split; reflexivity. Qed.
(* nor those of a motor with a capital letter *)
Theorem C91_capital_refuted : exists ret, getdimensions [txt "sampY"] [Qc_of_Z 7] (txt "zapimage sampY 0 1 10 sampz 0 1 10 50") [txt "sampY"] = Ok ret /\
  ret = [(txt "sampy", At (Qc_of_Z 7))].
Proof. exact capital_ignored. Qed.
Print Assumptions C91_capital_refuted.

(* the number of points of an image, and the size of its fast axis, are those of its grid *)
Theorem C91_image_sizes_partial ws tail cmd : laid ws tail cmd -> named ws cmd -> ends tail -> forall name mf sf ef nf ms ss es ns t,
  says ws (area name mf sf ef (txt "npixelsfast") nf ms ss es ns t) -> (1 < nf)%Z -> (0 < ns)%Z ->
  exists z fast slow, image_sizes cmd = Ok z /\ zapline_values sf ef nf = Ok fast /\ ascan_values ss es ns = Ok slow /\
    scansize z = (Z.of_nat (length fast), Z.of_nat (length slow)) /\
    zapline_scansize sf ef nf = Ok (fst (scansize_units z)) /\ snd (scansize_units z) = (ef - sf)%Qc.
Proof. exact (images_spec ws tail cmd). Qed.
Print Assumptions C91_image_sizes_partial.
(* but the size of the slow axis is that of the fast axis *)
Theorem C91_slow_size_refuted : exists ws cmd mf sf ef nf ms ss es ns t z,
  says ws (area (txt "zapimage") mf sf ef (txt "npixelsfast") nf ms ss es ns t) /\ laid ws [] cmd /\ named ws cmd /\
  image_sizes cmd = Ok z /\ ascan_scansize ss es ns = Ok (Qc_of_Z 5) /\ snd (scansize_units z) = Qc_of_Z 1.
Proof. exact slow_size_ignored. Qed.
Print Assumptions C91_slow_size_refuted.
Theorem C91_image_of_one_column_refuted ws tail cmd : laid ws tail cmd -> named ws cmd -> ends tail -> forall name mf sf ef ms ss es ns t,
  says ws (area name mf sf ef (txt "npixelsfast") 1 ms ss es ns t) -> image_sizes cmd = Err ZeroDivisionError.
Proof. exact (images_one_pixel ws tail cmd). Qed.
Print Assumptions C91_image_of_one_column_refuted.
Example C91_image_of_one_column_case : image_sizes (txt "zapimage sampy 0 1 1 sampz 0 5 4 50") = Err ZeroDivisionError.
Proof. reflexivity. Qed.

(* no command for a part of a map is ever made *)
Theorem C91_submap_refuted A cmd header currentpos microntounits : exists e, @zapimage_submap A cmd header currentpos microntounits = Err e.
Proof. exact (submap_never cmd header currentpos microntounits). Qed.
Print Assumptions C91_submap_refuted.
Example C91_submap_case : @zapimage_submap unit (Some (txt "zapimage sampy 0 1 10 sampz 0 5 4 50")) [(txt "sampy", Qc_of_Z 1); (txt "sampz", Qc_of_Z 1)]
  [(txt "sampy", Qc_of_Z 1); (txt "sampz", Qc_of_Z 1)] [(txt "sampy", Qc_of_Z 1); (txt "sampz", Qc_of_Z 1)] = Err AttributeError.
Proof. reflexivity. Qed.
