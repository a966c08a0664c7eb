(* Model of src/spectrocrunch/align/alignFFT.py and of what it uses of math/center.py.  Numbers are exact real numbers
   (no rounding).  Images are the two-dimensional arrays the image sources return, a pixel is a number or nan (None).
   Not modelled: the method "fit" (a least squares fit of scipy), numpy's broadcasting between images of different
   shapes (ValueError here), the log-polar transform behind rotations and scaling, plots and prints. *)
From Verif Require Export FtComplexModel.
From Coq Require Import Reals.
Local Open Scope R_scope.

(* complex numbers: the numbers of FtComplexModel *)
Notation cx := (R * R)%type.
(* np.abs and np.conj *)
Definition modulus (z : cx) : R := sqrt (fst z * fst z + snd z * snd z).
Definition conjugate (z : cx) : cx := (fst z, - snd z).
Definition below (a b : R) : bool := if Rlt_dec a b then true else false.
(* align/alignFFT.py:173-178 ftmodulus, of one value *)
Definition ftmodulus (z : cx) : R := let m := modulus z in if below m (/ 10 ^ 20) then 1 else m.

(* np.nanargmax and np.nanmax of numbers: the first of the greatest *)
Fixpoint best_from (i : nat) (best : nat * R) (l : list R) : nat * R :=
  match l with
  | [] => best
  | v :: l' => best_from (S i) (if below (snd best) v then (i, v) else best) l'
  end.
Definition greatest (l : list R) : result (nat * R) :=
  match l with [] => Err ValueError | v :: l' => Ok (best_from 1 (0%nat, v) l') end.
(* sum over 0, ..., n - 1 *)
Fixpoint rsum (n : nat) (f : nat -> R) : R := match n with O => 0 | S n' => rsum n' f + f n' end.

(* math/center.py:59-67: the window around the maximum; at most length l turns *)
Fixpoint widen1 (fuel : nat) (l : list R) (thres : R) (a b : nat) : nat * nat :=
  match fuel with
  | O => (a, b)
  | S fuel' =>
      if below thres (nth a l 0) && below thres (nth b l 0) then
        match a with
        | O => (a, b)
        | S a' => if (length l <=? S b)%nat then (a, b) else widen1 fuel' l thres a' (S b)
        end
      else (a, b)
  end.
(* math/center.py:20-23 _centroid of the values f 0, ..., f (n - 1) *)
Definition centroid1 (n : nat) (f : nat -> R) : R := rsum n (fun i => INR i * f i) / rsum n f.
(* math/center.py:52-71, 103-104 fcentroid, one dimension *)
Definition fcentroid1 (l : list R) : result R :=
  let! (shift, m) := greatest l in
  let '(a, b) := widen1 (length l) l (9 / 10 * m) shift shift in
  if (a =? b)%nat then Ok (INR shift)
  else Ok (centroid1 (S b - a) (fun i => nth (a + i) l 0) + INR a).

(* values on a grid of rows and columns *)
Record grid : Type := { rows_of : nat; cols_of : nat; at_ : nat -> nat -> R }.
Definition flat (d : grid) : list R := map (fun k => at_ d (k / cols_of d) (k mod cols_of d)) (seq 0 (rows_of d * cols_of d)).
(* data[y - off : y + off + 1, x - off : x + off + 1] *)
Definition square (d : grid) (y x off : nat) : grid :=
  {| rows_of := off + off + 1; cols_of := off + off + 1; at_ := fun i j => at_ d (y - off + i) (x - off + j) |}.
(* math/center.py:73-86 *)
Fixpoint widen2 (fuel : nat) (d : grid) (thres : R) (y x off : nat) : nat :=
  match fuel with
  | O => off
  | S fuel' =>
      if existsb (fun v => below v thres) (flat (square d y x off)) then off
      else if (y <? S off)%nat || (x <? S off)%nat || (rows_of d <=? y + S off)%nat || (cols_of d <=? x + S off)%nat then off
      else widen2 fuel' d thres y x (S off)
  end.
(* math/center.py:24-30 _centroid: first the column, then the row *)
Definition centroid2 (d : grid) : R * R :=
  let sum (f : nat -> nat -> R) := rsum (rows_of d) (fun i => rsum (cols_of d) (fun j => f i j)) in
  (sum (fun i j => INR j * at_ d i j) / sum (at_ d), sum (fun i j => INR i * at_ d i j) / sum (at_ d)).
(* math/center.py:52-54, 72-100, 103-104 fcentroid, two dimensions *)
Definition fmax2 (d : grid) : result (nat * nat * R) :=
  let! (k, m) := greatest (flat d) in Ok (k / cols_of d, k mod cols_of d, m)%nat.
Definition fcentroid2 (d : grid) : result (R * R) :=
  let! (y, x, m) := fmax2 d in
  let off := widen2 (rows_of d) d (9 / 10 * m) y x 0 in
  if (off =? 0)%nat then Ok (INR y, INR x)
  else let '(p0, p1) := centroid2 (square d y x off) in Ok (INR y + p0 - INR off, INR x + p1 - INR off).

(* 26: maxmethod *)
Inductive method : Type := Max | Centroid.
(* 189-200 cc_maximum *)
Definition cc_maximum1 (m : method) (cc : list cx) : result R :=
  let data := map ftmodulus cc in
  match m with Centroid => fcentroid1 data | Max => let! (i, _) := greatest data in Ok (INR i) end.
Definition moduli (cc : arr cx) : grid :=
  {| rows_of := rows complex_reals cc; cols_of := cols complex_reals cc; at_ := fun i j => ftmodulus (elt cc [i; j]) |}.
Definition cc_maximum2 (m : method) (cc : arr cx) : result (R * R) :=
  match m with Centroid => fcentroid2 (moduli cc) | Max => let! (y, x, _) := fmax2 (moduli cc) in Ok (INR y, INR x) end.

Section Align.
Variable mem : nat -> Z.        (* what np.empty holds *)
(* 22-26: the attributes sampling and maxmethod *)
Variable sampling : Z.
Variable maxmethod : method.

(* 219-226: indices above imax are negative shifts *)
Definition wrapped (n i : nat) : Z :=
  let s := Z.of_nat i in
  if (snd (fft_freqind (Z.of_nat n) Numpy) <? s)%Z then (s - Z.of_nat n)%Z else s.

(* 202-261 determine_shift, with 46-55 ifft_interpolate, one dimension *)
Definition determine_shift1 (f g : list cx) : result R :=
  if negb (length f =? length g)%nat then Err ValueError
  else
    let n := length f in
    let product := map (fun p => cmul complex_reals (fst p) (conjugate (snd p))) (combine f g) in
    let! cc := dft complex_reals mem product 1%Qc 0 None [] false true Numpy in
    let! (i, _) := greatest (map ftmodulus cc) in
    let shift := wrapped n i in
    if (1 <? sampling)%Z then
      let size := (4 * sampling)%Z in
      let offset := (snd (fft_freqind size Numpy) - shift * sampling)%Z in
      let! u := fftfreq mem (Z.of_nat n) (Qc_of_Z sampling) false Numpy in
      let x0 := (- offset)%Z in
      let! cc := dft complex_reals mem product 1%Qc x0 (Some (x0 + size - 1)%Z) u false true Numpy in
      let! p := cc_maximum1 maxmethod cc in
      Ok ((p - IZR offset) / IZR sampling)
    else Ok (IZR shift).

(* 202-261 determine_shift, with 56-70 ifft_interpolate, two dimensions; rows first *)
Definition determine_shift2 (f g : arr cx) : result (R * R) :=
  let r := rows complex_reals f in
  let c := cols complex_reals f in
  if negb ((r =? rows complex_reals g)%nat && (c =? cols complex_reals g)%nat) then Err ValueError
  else
    let product := matrix complex_reals r c (fun i j => cmul complex_reals (elt f [i; j]) (conjugate (elt g [i; j]))) in
    let! cc := dft2 complex_reals mem product 1%Qc 0 None [] 1%Qc 0 None [] false true Numpy in
    let! (y, x, _) := fmax2 (moduli cc) in
    let sy := wrapped r y in
    let sx := wrapped c x in
    if (1 <? sampling)%Z then
      let size := (3 * sampling)%Z in
      let center := snd (fft_freqind size Numpy) in
      let offy := (center - sy * sampling)%Z in
      let offx := (center - sx * sampling)%Z in
      let! u := fftfreq mem (Z.of_nat c) (Qc_of_Z sampling) false Numpy in
      let! v := fftfreq mem (Z.of_nat r) (Qc_of_Z sampling) false Numpy in
      let! cc := dft2 complex_reals mem product 1%Qc (- offx)%Z (Some (- offx + size - 1)%Z) u
                                            1%Qc (- offy)%Z (Some (- offy + size - 1)%Z) v false true Numpy in
      let! (py, px) := cc_maximum2 maxmethod cc in
      Ok ((py - IZR offy) / IZR sampling, (px - IZR offx) / IZR sampling)
    else Ok (IZR sy, IZR sx).

(* ---- images ---- *)
Record image : Type := { height : nat; width : nat; pixel : nat -> nat -> option R }.
(* the attribute cval: np.nan or a number *)
Inductive filler : Type := NotANumber | Value (v : R).
Variable cval : filler.

(* 153-158: is this pixel missing? *)
Definition is_missing (p : option R) : bool :=
  match cval with
  | NotANumber => match p with None => true | Some _ => false end
  | Value v => if Req_EM_T v 0 then false
               else match p with Some x => if Req_EM_T x v then true else false | None => false end
  end.
(* size in shape *)
Definition is1D (im : image) : bool :=
  (height im * width im =? height im)%nat || (height im * width im =? width im)%nat.
(* a Fourier transform; one nan pixel makes all of it nan *)
Inductive transformed : Type := Line (f : list cx) | Plane (f : arr cx) | Undefined.
Definition has_nan (im : image) : bool :=
  existsb (fun i => existsb (fun j => match pixel im i j with None => true | Some _ => false end) (seq 0 (width im))) (seq 0 (height im)).
Definition number (p : option R) : cx := match p with Some x => (x, 0) | None => (0, 0) end.
(* 151-171 fft_handle_missing *)
Definition fft_handle_missing (im : image) : result transformed :=
  let im2 := {| height := height im; width := width im;
                pixel := fun i j => if is_missing (pixel im i j) then Some 0 else pixel im i j |} in
  if (height im * width im =? 0)%nat then Err ValueError
  else if has_nan im2 then Ok Undefined
  else if is1D im2 then
    let! f := dft complex_reals mem (map (fun k => number (pixel im2 (k / width im) (k mod width im))) (seq 0 (height im * width im)))
                1%Qc 0 None [] false false Numpy in
    Ok (Line f)
  else
    let! f := dft2 complex_reals mem (matrix complex_reals (height im) (width im) (fun i j => number (pixel im2 i j)))
                1%Qc 0 None [] 1%Qc 0 None [] false false Numpy in
    Ok (Plane f).

(* the Fourier transforms of the reference and of the last image *)
Record state : Type := { fixedft : option transformed; movingft : option transformed }.
(* 339-344 set_reference *)
Definition set_reference (st : state) (im : image) (previous : bool) : result state :=
  if previous then Ok {| fixedft := movingft st; movingft := movingft st |}
  else let! f := fft_handle_missing im in Ok {| fixedft := Some f; movingft := movingft st |}.

(* align/types.py transformationType *)
Inductive transfotype : Type := Translation | Rigid | Similarity | Affine | Projective.
(* determine_shift with nothing but nan: np.nanargmax raises ValueError; None.conj() raises AttributeError *)
Definition shift1 (moving fixed : option transformed) : result R :=
  match moving, fixed with
  | _, None => Err AttributeError
  | Some (Line f), Some (Line g) => determine_shift1 f g
  | _, _ => Err ValueError
  end.
Definition shift2 (moving fixed : option transformed) : result (R * R) :=
  match moving, fixed with
  | _, None => Err AttributeError
  | Some (Plane f), Some (Plane g) => determine_shift2 f g
  | _, _ => Err ValueError
  end.
(* 263-337 execute_alignkernel: the translation (x, y) the image is moved by *)
Definition execute_alignkernel (type : transfotype) (st : state) (im : image) : state * result (R * R) :=
  match fft_handle_missing im with
  | Err e => (st, Err e)
  | Ok f =>
      let st := {| fixedft := fixedft st; movingft := Some f |} in
      (st,
       if is1D im then
         match type with
         | Translation =>
             let! shift := shift1 (movingft st) (fixedft st) in
             Ok (if (height im =? 1)%nat then (shift, 0) else (0, shift))
         | _ => Err ValueError
         end
       else
         match type with
         | Translation => let! (sy, sx) := shift2 (movingft st) (fixedft st) in Ok (sx, sy)
         | Rigid | Similarity =>
             match fixedft st with
             | None => Err TypeError                      (* np.abs(None) < 1e-20 *)
             | Some (Plane g) =>
                 match f with
                 | Plane f =>
                     if (rows complex_reals f =? rows complex_reals g)%nat && (cols complex_reals f =? cols complex_reals g)%nat
                     then Ok (-84, -48) else Err ValueError
                 | _ => Err ValueError
                 end
             | Some _ => Err ValueError
             end
         | Affine | Projective => Err NotImplementedError
         end)
  end.
End Align.
