(* Model of src/spectrocrunch/align/align.py: padding and cropping of aligned images and of
   their axes, and the loop that calculates and applies the transformations. *)
From Verif Require Export TransformModel.
Local Open Scope Z_scope.

(** ** Padding and cropping *)
(* align/align.py:66 extend: ((o1min, o1max), (o2min, o2max)); negative is crop, positive is pad *)
Definition extension : Type := (Z * Z) * (Z * Z).
(* align/align.py:116-120 padfromextend, one dimension *)
Definition padfromextend (e : Z * Z) : Z * Z := (Z.max (fst e) 0, Z.max (snd e) 0).
(* align/align.py:122-126 cropfromextend, one dimension *)
Definition cropfromextend (e : Z * Z) (dim : Z) : Z * Z := (Z.max (- fst e) 0, dim - Z.max (- snd e) 0).
Definition zrepeat {A} (x : A) (n : Z) : list A := repeat x (Z.to_nat n).
(* an image: its number of columns and its rows *)
Record img (V : Type) := Img { cols : Z; rows : list (list V) }.
Arguments Img {V} cols rows.
Arguments cols {V} i.
Arguments rows {V} i.
Definition nrows {V} (i : img V) : Z := Z.of_nat (length (rows i)).
(* align/align.py:128-134 pad: np.pad with a constant *)
Definition pad_line {A} (p : Z * Z) (x : A) (l : list A) : list A := zrepeat x (fst p) ++ l ++ zrepeat x (snd p).
Definition pad {V} (cval : V) (e : extension) (i : img V) : img V :=
  let p0 := padfromextend (fst e) in
  let p1 := padfromextend (snd e) in
  if (fst p0 =? 0) && (snd p0 =? 0) && (fst p1 =? 0) && (snd p1 =? 0) then i
  else
    let w := fst p1 + cols i + snd p1 in
    Img w (pad_line p0 (zrepeat cval w) (map (pad_line p1 cval) (rows i))).
(* align/align.py:136-148 crop: img[a0:b0, a1:b1] *)
Definition crop_line {A} (c : Z * Z) (l : list A) : list A := py_slice l (Some (fst c)) (Some (snd c)).
Definition slice_len (n : Z) (c : Z * Z) : Z :=
  Z.max 0 (slice_bound n n (Some (snd c)) - slice_bound n 0 (Some (fst c))).
Definition crop {V} (e : extension) (i : img V) : img V :=
  let c0 := cropfromextend (fst e) (nrows i) in
  let c1 := cropfromextend (snd e) (cols i) in
  if negb (fst c0 =? 0) || negb (fst c1 =? 0) || negb (snd c0 =? nrows i) || negb (snd c1 =? cols i) then
    Img (slice_len (cols i) c1) (map (crop_line c1) (crop_line c0 (rows i)))
  else i.
(* align/align.py:518-526 setextend: the extension and the flags pre_transform["pad"],
   post_transform["crop"].  imgsize is (rows, columns). *)
Record extstate := Ext { extend : extension; do_pad : bool; do_crop : bool }.
Definition any4 (f : Z -> bool) (e : extension) : bool :=
  f (fst (fst e)) || f (snd (fst e)) || f (fst (snd e)) || f (snd (snd e)).
Definition setextend (imgsize : Z * Z) (xmin ymin xmax ymax : Z) : extstate :=
  let e := ((- ymin, ymax - fst imgsize + 1), (- xmin, xmax - snd imgsize + 1)) in
  Ext e (any4 (fun z => 0 <? z) e) (any4 (fun z => z <? 0) e).
(* align/align.py:692-699 dest_imgsize *)
Definition dest_imgsize (imgsize : Z * Z) (s : extstate) : Z * Z :=
  if do_pad s || do_crop s then
    (fst imgsize + fst (fst (extend s)) + snd (fst (extend s)), snd imgsize + fst (snd (extend s)) + snd (snd (extend s)))
  else imgsize.
(* align/align.py:207-229 dopre_transform and dopost_transform without the transformation in
   between and without a manual transformation: pad, then crop *)
Definition pad_and_crop {V} (cval : V) (s : extstate) (i : img V) : img V :=
  let i := if do_pad s then pad cval (extend s) i else i in
  if do_crop s then crop (extend s) i else i.

(* numpy: a[lo:hi] = vals; the number of values must be that of the slice (a single value is
   repeated) *)
Definition assign_slice {A} (l : list A) (lo hi : option Z) (vals : list A) : result (list A) :=
  let n := Z.of_nat (length l) in
  let a := slice_bound n 0 lo in
  let b := slice_bound n n hi in
  let k := Z.max 0 (b - a) in
  let put (v : list A) := firstn (Z.to_nat a) l ++ v ++ skipn (Z.to_nat (a + k)) l in
  if Z.of_nat (length vals) =? k then Ok (put vals)
  else match vals with [v] => Ok (put (zrepeat v k)) | _ => Err ValueError end.
(* l[k] for k >= 0 *)
Definition get {A} (l : list A) (k : nat) : result A :=
  match nth_error l k with Some a => Ok a | None => Err IndexError end.
(* np.arange(n) *)
Definition arange (n : Z) : list Z := map Z.of_nat (seq 0 (Z.to_nat n)).
Local Open Scope Qc_scope.
(* align/align.py:617-648 one axis in transform_axes.  None is an element that np.empty left
   without a value. *)
Definition transform_axis (axis : list Qc) (nleft nright : Z) : result (list (option Qc)) :=
  let naxis := Z.of_nat (length axis) in
  let size := (naxis + nleft + nright)%Z in
  if (size <? 0)%Z then Err ValueError
  else
    let newaxis := zrepeat None size in
    let axis0 := if (nleft <? 0)%Z then (- nleft)%Z else 0%Z in
    let off0 := if (nleft <? 0)%Z then 0%Z else nleft in
    let axisn := if (nright <? 0)%Z then (naxis + nright)%Z else naxis in
    let offn := (off0 + axisn - axis0)%Z in
    let! newaxis :=
      if (0 <? nleft)%Z then
        let! a1 := py_get axis 1 in
        let! a0 := py_get axis 0 in
        let delta := a1 - a0 in
        assign_slice newaxis (Some 0%Z) (Some nleft)
          (map (fun k => Some ((a0 - delta * Qc_of_Z nleft) + delta * Qc_of_Z k)) (arange nleft))
      else Ok newaxis in
    let! newaxis := assign_slice newaxis (Some off0) (Some offn) (map Some (py_slice axis (Some axis0) (Some axisn))) in
    if (0 <? nright)%Z then
      let! b1 := py_get axis (-1) in
      let! b2 := py_get axis (-2) in
      let delta := b1 - b2 in
      assign_slice newaxis (Some offn) None (map (fun k => Some ((b1 + delta) + delta * Qc_of_Z k)) (arange nright))
    else Ok newaxis.
(* align/align.py:600-650 transform_axes (and getaxesaftertransformation, 652-690, in place):
   the stack has three dimensions, stackdim is the one that is not of the image *)
Definition image_dims (stackdim : Z) : nat * nat :=
  if (stackdim =? 2)%Z then (0%nat, 1%nat) else if (stackdim =? 1)%Z then (0%nat, 2%nat) else (1%nat, 2%nat).
Definition transform_axes (s : extstate) (stackdim : Z) (axes : list (list Qc)) : result (list (list (option Qc))) :=
  let out := map (map Some) axes in
  if negb (do_pad s) && negb (do_crop s) then Ok out
  else
    let (d0, d1) := image_dims stackdim in
    let! a0 := get axes d0 in
    let! a0 := transform_axis a0 (fst (fst (extend s))) (snd (fst (extend s))) in
    let! a1 := get axes d1 in
    let! a1 := transform_axis a1 (fst (snd (extend s))) (snd (snd (extend s))) in
    Ok (set_nth (set_nth out d0 a0) d1 a1).

(** ** Calculating and applying transformations *)
(* align/types.py:4 alignType *)
Inductive aligntype := Full | UseTransfo | CalcTransfo.
(* align/align.py:272-297 calccof_prealign_to_raw for one image: the new
   (prealign_to_raw, prealign_to_pretransform).  roi is ((ya, yb), (xa, xb)); the code takes
   both numbers of its first pair as the origin (ty, tx). *)
Definition calccof_prealign_to_raw (roi : option ((Qc * Qc) * (Qc * Qc))) (old : mapping * mapping) (pretransfo : mapping)
    : result (mapping * mapping) :=
  let CroiInv := match roi with Some ((ty, tx), _) => Trn (- tx) (- ty) | None => Trn 0 0 end in
  let! to_raw := fromtransform (fst old) CroiInv in
  let! to_raw :=
    if isidentity pretransfo then Ok to_raw
    else let! i := inverse pretransfo in Ok (before to_raw i) in
  let! to_pre := fromtransform (snd old) to_raw in
  Ok (to_raw, to_pre).
(* align/align.py:299-324 calccof_prealign_to_pretransform for one image: the combined
   mappings made by before are not kept *)
Definition calccof_prealign_to_pretransform (old : mapping * mapping) : result (mapping * mapping) :=
  let! to_pre := fromtransform (snd old) (fst old) in Ok (fst old, to_pre).

Section Align.
(* Images, the transformation of an image (transformimage of align/transform.py), what the
   align kernel finds for a moving image on a fixed image, the preprocessing of image i for
   alignment (dopre_align: function, manual transformation, roi), and what is done with image
   i before and after the transformation (dopre_transform: manual transformation and padding,
   dopost_transform: cropping). *)
Context {I : Type}.
Variable apply : mapping -> I -> result I.
Variable kernel : I -> I -> mapping.
Variable prep : nat -> I -> I.
Variable before_transform : nat -> I -> I.
Variable after_transform : I -> I.
(* raw j i: image i of dataset j *)
Variable raw : nat -> nat -> I.

(* transfos: the transformation of each image; frames: prealign_to_raw and
   prealign_to_pretransform of each image *)
Record state := St { transfos : list mapping; frames : list (mapping * mapping) }.
Record settings := Settings {
  nsets : nat; nimages : nat; refdataset : nat;
  refimage : option nat;       (* None: pairwise *)
  alignonraw : bool;
  has_roi : bool;              (* pre_align["roi"] is not None *)
  nopre : nat -> bool;         (* nopre_transform: no padding and no manual transformation *)
  nopost : bool                (* nopost_transform: no cropping *)
}.
Definition with_transfo (st : state) (i : nat) (t : mapping) : state := St (set_nth (transfos st) i t) (frames st).
(* align/align.py:326-346 execute_transform of image i with its own transformation; usekernel
   is False.  The stored transformation is changed in place. *)
Definition execute_transform (st : state) (i : nat) (im : I) : result (I * state) :=
  let! transfo := get (transfos st) i in
  let! C := get (frames st) i in
  let! transfo := if isidentity (snd C) then Ok transfo else new_frame_inplace transfo (snd C) in
  let st := with_transfo st i transfo in
  if isidentity transfo then Ok (im, st)
  else let! im := apply transfo im in Ok (im, st).
(* align/align.py:354-362 pureidentity *)
Definition pureidentity (c : settings) (st : state) (i : nat) : result bool :=
  if nopre c i && nopost c then let! t := get (transfos st) i in Ok (isidentity t) else Ok false.
(* align/align.py:364-384 transform *)
Definition transform (c : settings) (st : state) (i : nat) (im : I) : result (I * state) :=
  let! p := pureidentity c st i in
  if p then Ok (im, st)
  else
    let! (im, st) := execute_transform st i (before_transform i im) in
    Ok (after_transform im, st).
(* align/align.py:394-403 store_transformation; transfo is what get_alignkernel returns *)
Definition store_transformation (c : settings) (st : state) (i : nat) (transfo : mapping) : result state :=
  let pairwise := match refimage c with None => true | Some _ => false end in
  let! own := get (transfos st) i in
  let! new :=
    if pairwise && negb (i =? 0)%nat && alignonraw c then
      let! previous := get (transfos st) (i - 1) in fromtransform own (before previous transfo)
    else fromtransform own transfo in
  Ok (with_transfo st i new).
(* align/align.py:405-407 settransformidentity *)
Definition settransformidentity (st : state) (i : nat) : result state :=
  let! own := get (transfos st) i in Ok (with_transfo st i (setidentity own)).

(* An image written to the destination: dataset, image number, image *)
Definition written : Type := (nat * nat) * I.
(* align/align.py:784-801 image i of the datasets js *)
Fixpoint write_datasets (c : settings) (ty : aligntype) (st : state) (i : nat) (aligned : I) (js : list nat)
    : result (state * list written) :=
  match js with
  | [] => Ok (st, [])
  | j :: js' =>
      let usealigned :=
        match ty with UseTransfo => false | _ => true end
        && (j =? refdataset c)%nat && negb (has_roi c) && nopre c i && nopost c in
      let! (im, st) := if usealigned then Ok (aligned, st) else transform c st i (raw j i) in
      let! (st, rest) := write_datasets c ty st i aligned js' in
      Ok (st, (j, i, im) :: rest)
  end.
(* align/align.py:780-783 when nothing has to be done for image i the raw images are copied *)
Definition write_image (c : settings) (ty : aligntype) (st : state) (i : nat) (aligned : I) : result (state * list written) :=
  let! p := pureidentity c st i in
  if p then Ok (st, map (fun j => (j, i, raw j i)) (seq 0 (nsets c)))
  else write_datasets c ty st i aligned (seq 0 (nsets c)).
(* align/align.py:736-766 the transformation of image i: fixed is the reference image and iref
   its number.  The result is the state and the aligned image, which the align kernel makes
   by applying the transformation it finds. *)
Definition align_image (c : settings) (st : state) (i : nat) (fixed : I) (iref : nat) : result (state * I) :=
  let rawprep := prep i (raw (refdataset c) i) in
  if (i =? iref)%nat then
    let! st := settransformidentity st i in Ok (st, rawprep)
  else
    let transfo := kernel fixed rawprep in
    let! aligned := if isidentity transfo then Ok rawprep else apply transfo rawprep in
    let! st := store_transformation c st i transfo in
    Ok (st, aligned).
(* align/align.py:733-801 the loop over the images.  The mask for cropping is not modelled. *)
Fixpoint align_loop (c : settings) (ty : aligntype) (st : state) (fixed : I) (iref : nat) (is : list nat)
    : result (state * list written) :=
  match is with
  | [] => Ok (st, [])
  | i :: is' =>
      match ty with
      | UseTransfo =>
          let! (st, out) := write_image c ty st i fixed in
          let! (st, rest) := align_loop c ty st fixed iref is' in
          Ok (st, out ++ rest)
      | _ =>
          let! (st, aligned) := align_image c st i fixed iref in
          let (fixed, iref) :=
            match refimage c with
            | Some _ => (fixed, iref)
            | None => ((if alignonraw c then prep i (raw (refdataset c) i) else aligned), i)
            end in
          let! (st, out) :=
            match ty with CalcTransfo => Ok (st, []) | _ => write_image c ty st i aligned end in
          let! (st, rest) := align_loop c ty st fixed iref is' in
          Ok (st, out ++ rest)
      end
  end.
(* align/align.py:711-801 doalign *)
Definition doalign (c : settings) (ty : aligntype) (st : state) : result (state * list written) :=
  let r := match refimage c with None => 0%nat | Some r => r end in
  align_loop c ty st (prep r (raw (refdataset c) r)) r (seq 0 (nimages c)).

(* align/align.py:803-833 prepare_pre_align with the manual transformations pres, one for each
   image: zip stops at the shortest list *)
Definition prepare_pre_align (roi : option ((Qc * Qc) * (Qc * Qc))) (pres : list mapping) (st : state) : result state :=
  let! fs := mapM (fun fp => calccof_prealign_to_raw roi (fst fp) (snd fp)) (List.combine (frames st) pres) in
  Ok (St (transfos st) (fs ++ skipn (length pres) (frames st))).
(* align/align.py:571-598 parsetransformation_beforeapplication: center is the translation with
   which minimaltransformation combines every transformation, None when padding or cropping
   was requested.  How it follows from the polygons of the images is not modelled. *)
Definition parsetransformation_beforeapplication (center : option (Qc * Qc)) (st : state) : result state :=
  let ts := match center with None => transfos st | Some (x, y) => map (fun t => before t (Trn x y)) (transfos st) end in
  let! fs := mapM calccof_prealign_to_pretransform (frames st) in
  Ok (St ts fs).
(* align/align.py:835-895 align without redo: redo is doalign c UseTransfo.  twopass: a roi,
   padding, cropping, a function for the raw data or a manual transformation was asked for. *)
Definition align (c : settings) (twopass : bool) (roi : option ((Qc * Qc) * (Qc * Qc))) (pres : list mapping)
    (center : option (Qc * Qc)) (st : state) : result (state * list written) :=
  let! st := prepare_pre_align roi pres st in
  if twopass then
    let! (st, _) := doalign c CalcTransfo st in
    let! st := parsetransformation_beforeapplication center st in
    doalign c UseTransfo st
  else doalign c Full st.
(* align/align.py:69-79 the transformations of a new aligner: t is defaulttransform() *)
Definition new_state (t : mapping) (n : nat) : state := St (repeat t n) (repeat (t, t) n).
End Align.
