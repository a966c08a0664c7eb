(* Model of src/spectrocrunch/fullfield/import_id21.py and src/spectrocrunch/process/nxfullfield.py: dark, flat and data images.
   An image has a number of rows and columns and exact pixel values; a result that is not finite (division by zero) is None.
   Opening files, the conversion of header values to numbers ([number]) and broadcasting of images of different shape are not
   modelled; the negative logarithm of the transmission is not taken. *)
From Verif Require Export Base QcTac.
From Verif Require AxisModel ListToolsModel.
From Coq Require Export String.
Local Open Scope list_scope.
Local Open Scope nat_scope.

Record image : Type := Image { rows : nat; cols : nat; px : nat -> nat -> Qc }.
Fixpoint sumn (n : nat) (f : nat -> Qc) : Qc := match n with O => 0%Qc | S m => (sumn m f + f m)%Qc end.

(* fullfield/import_id21.py:9-20 execrebin: reshape keeps the flat (row major) order *)
Definition execrebin (img : image) (r : nat * nat) : result image :=
  let '(r0, r1) := r in
  if (r0 =? 0) || (r1 =? 0) then Err ZeroDivisionError
  else
    let s0 := rows img / r0 in
    let s1 := cols img / r1 in
    let ncol := s1 * r1 in
    let view k := px img (k / ncol) (k mod ncol) in
    let four i a j b := view (((i * r0 + a) * s1 + j) * r1 + b) in
    Ok (Image s0 s1 (fun i j => sumn r0 (fun a => sumn r1 (fun b => four i a j b)))).

(* 23-31 execroi: Python slices; first element and number of elements *)
Definition slice_t : Type := option Z * option Z.
Definition sliced (n : nat) (s : slice_t) : nat * nat :=
  let i := slice_bound (Z.of_nat n) 0 (fst s) in
  let j := slice_bound (Z.of_nat n) (Z.of_nat n) (snd s) in
  (Z.to_nat i, Z.to_nat (j - i)).
Definition execroi (img : image) (roi : slice_t * slice_t) : image :=
  let '(i0, ni) := sliced (rows img) (fst roi) in
  let '(j0, nj) := sliced (cols img) (snd roi) in
  Image ni nj (fun i j => px img (i0 + i) (j0 + j)).

Record params : Type := Params {
  p_roi : option (slice_t * slice_t);
  p_rebin : nat * nat;
  p_time : string;                     (* str(frametimedefault) *)
  p_zero : Qc; p_gain : Qc;            (* darkcurrentzero, darkcurrentgain *)
  p_beforeafter : bool; p_keepflat : bool; p_normalize : bool;
  p_stacks : list string; p_flatstacks : list string }.
(* an opened file: its image and the header values that are used (None when not in the header) *)
Record file : Type := File {
  f_name : string; f_data : image; f_time : option string; f_frames : option Qc;
  f_stack : option string; f_roi : option (list Z) }.

(* 34-43 procraw *)
Definition procraw (p : params) (img : image) : result image :=
  let img := match p_roi p with Some roi => execroi img roi | None => img end in
  if (1 <? fst (p_rebin p)) || (1 <? snd (p_rebin p)) then execrebin img (p_rebin p) else Ok img.

Definition add (a b : image) : result image :=
  if (rows a =? rows b) && (cols a =? cols b) then Ok (Image (rows a) (cols a) (fun i j => px a i j + px b i j)%Qc) else Err ValueError.

Section Library.
Variable number : string -> Qc.

Definition frametime (p : params) (f : file) : string := match f_time f with Some t => t | None => p_time p end.
Definition nframes (f : file) : Qc := match f_frames f with Some n => n | None => 1%Qc end.

(* 46-101 darklibrary *)
Record darks : Type := Darks { d_data : image; d_frames : Qc }.
Definition lib : Type := list (string * darks).
Definition add_dark (p : params) (l : lib) (f : file) : result lib :=
  let! data := procraw p (f_data f) in
  match lookup String.eqb (frametime p f) l with
  | Some d =>
      let! s := add (d_data d) data in
      Ok (assign String.eqb (frametime p f) (Darks s (d_frames d + nframes f)%Qc) l)
  | None => Ok (assign String.eqb (frametime p f) (Darks data (nframes f)) l)
  end.
Fixpoint darklibrary (p : params) (l : lib) (fs : list file) : result lib :=
  match fs with
  | [] => Ok l
  | f :: fs' => let! l' := add_dark p l f in darklibrary p l' fs'
  end.

(* 403 of getnormalizedimage: the dark of n frames; a library without the frame time gives the default (66-73) *)
Definition subtract (p : params) (l : lib) (t : string) (n : Qc) (data : image) : result (option image) :=
  match lookup String.eqb t l with
  | None => Ok (Some (Image (rows data) (cols data) (fun i j => px data i j - (p_zero p + p_gain p * number t) / 1 * n)%Qc))
  | Some d =>
      if (rows data =? rows (d_data d)) && (cols data =? cols (d_data d)) then
        if Qc_eqb (d_frames d) 0 then Ok None
        else Ok (Some (Image (rows data) (cols data) (fun i j => px data i j - px (d_data d) i j / d_frames d * n)%Qc))
      else Err ValueError
  end.
(* 404-409 *)
Definition accumulate (acc : option (option image * Qc)) (data : option image) (t : Qc) : result (option (option image * Qc)) :=
  match acc with
  | None => Ok (Some (data, t))
  | Some (img, t0) =>
      match img, data with
      | Some a, Some b => let! s := add a b in Ok (Some (Some s, (t0 + t)%Qc))
      | _, _ => Ok (Some (None, (t0 + t)%Qc))
      end
  end.
Fixpoint images (p : params) (l : lib) (fs : list file) (acc : option (option image * Qc)) : result (option (option image * Qc)) :=
  match fs with
  | [] => Ok acc
  | f :: fs' =>
      let! data := procraw p (f_data f) in
      let! data := subtract p l (frametime p f) (nframes f) data in
      let! acc := accumulate acc data (number (frametime p f) * nframes f)%Qc in
      images p l fs' acc
  end.
(* 367-412 getnormalizedimage: None /= None is a TypeError *)
Definition normalized (p : params) (l : lib) (fs : list file) : result (option image) :=
  let! acc := images p l fs None in
  match acc with
  | None => Err TypeError
  | Some (None, _) => Ok None
  | Some (Some img, t) => if Qc_eqb t 0 then Ok None else Ok (Some (Image (rows img) (cols img) (fun i j => px img i j / t)%Qc))
  end.

(* 104-122 getroi: the integers in the header, camera coordinates have x first *)
Definition getroi (f : file) : result (list Z) :=
  match f_roi f with
  | Some l =>
      let! a := py_get l 1 in let! b := py_get l 0 in let! c := py_get l 3 in let! d := py_get l 2 in
      Ok [a; b; c; d]
  | None => Ok [0%Z; 0%Z; Z.of_nat (rows (f_data f)); Z.of_nat (cols (f_data f))]
  end.

(* 125-183 axesvalues, one axis: origin o, n pixels *)
Definition axis_values (o n : Z) (roi : option slice_t) (d : nat) : result (list Qc) :=
  let '(o, n) :=
    match roi with
    | None => (o, n)
    | Some (a, b) =>
        let a := match a with Some a => a | None => 0%Z end in
        let b := match b with Some b => b | None => n end in
        let a := if (a <? 0)%Z then (a + n)%Z else a in
        let b := if (b <? 0)%Z then (b + n)%Z else b in
        ((o + a)%Z, (b - a)%Z)
    end in
  if d =? 0 then Err ZeroDivisionError
  else
    let n := (n / Z.of_nat d)%Z in
    let x0 := (Qc_of_Z o + Qc_of_Z (Z.of_nat d - 1) / Qc_of_Z 2)%Qc in
    let x1 := (x0 + Qc_of_Z ((n - 1) * Z.of_nat d))%Qc in
    AxisModel.linspace x0 x1 n.
Definition axesvalues (p : params) (roi : list Z) : result (list Qc * list Qc) :=
  match roi with
  | [y0; x0; ny; nx] =>
      let! col := axis_values x0 nx (option_map snd (p_roi p)) (snd (p_rebin p)) in
      let! row := axis_values y0 ny (option_map fst (p_roi p)) (fst (p_rebin p)) in
      Ok (row, col)
  | _ => Err IndexError
  end.

(* 186-284 dataflatlibrary *)
Definition stackvalues (given : list string) (fs : list file) : list (option string) :=
  if List.length given =? List.length fs then map Some given else map (fun _ => None) fs.
Definition roi_eqb (a b : list Z) : bool := (List.length a =? List.length b) && forallb (fun p => (fst p =? snd p)%Z) (combine a b).
Definition groups : Type := list (string * list file).
(* [new]: may a key be added *)
Definition add_file (new : bool) (st : option (list Z) * groups) (fv : file * option string) : result (option (list Z) * groups) :=
  let '(roi, g) := st in
  let '(f, v) := fv in
  match (match v with Some k => Some k | None => f_stack f end) with
  | None => Ok st
  | Some k =>
      let! r := getroi f in
      let same := match roi with None => true | Some r0 => roi_eqb r r0 end in
      let roi' := match roi with None => Some r | Some r0 => Some r0 end in
      if same then
        match lookup String.eqb k g with
        | Some l => Ok (roi', assign String.eqb k (l ++ [f]) g)
        | None => if new then Ok (roi', assign String.eqb k [f] g) else Ok (roi', g)
        end
      else Ok (roi', g)
  end.
Fixpoint add_files (new : bool) (st : option (list Z) * groups) (fs : list (file * option string)) : result (option (list Z) * groups) :=
  match fs with
  | [] => Ok st
  | f :: fs' => let! st' := add_file new st f in add_files new st' fs'
  end.
Definition name_leb (a b : file) : bool := String.leb (f_name a) (f_name b).
(* 296-312: flat images before and after *)
Definition split_flats (l : list file) : list file * list file :=
  let l := ListToolsModel.sorted name_leb l in
  let n := List.length l in
  if n =? 1 then (l, []) else (firstn (n / 2) l, skipn (n / 2) l).
Record library : Type := Library { l_data : groups; l_flat1 : groups; l_flat2 : option groups; l_order : list string; l_axes : list Qc * list Qc }.
Definition dataflatlibrary (p : params) (datafiles flatfiles : list file) : result library :=
  let! st := add_files true (None, []) (combine datafiles (stackvalues (p_stacks p) datafiles)) in
  let data := snd st in
  let! st := add_files false (fst st, map (fun x => (fst x, [])) data) (combine flatfiles (stackvalues (p_flatstacks p) flatfiles)) in
  let flat := snd st in
  match fst st, data with
  | Some roi, _ :: _ =>
      let! axes := axesvalues p roi in
      let flats := map (fun x => (fst x, split_flats (snd x))) flat in
      Ok (Library data
            (if p_beforeafter p then map (fun x => (fst x, fst (snd x))) flats else flat)
            (if p_beforeafter p then Some (map (fun x => (fst x, snd (snd x))) flats) else None)
            (ListToolsModel.sorted (fun a b => Qc_leb (number a) (number b)) (map fst data)) axes)
  | _, _ => Err OSError
  end.

(* process/nxfullfield.py:71-96: sample and flat images of one key. The transmission of which -log is saved has a value per pixel *)
Definition ratio (a b : Qc) : option Qc := if Qc_eqb b 0 then None else Some (a / b)%Qc.
Record slice_out : Type := Out { o_rows : nat; o_cols : nat; o_px : nat -> nat -> option Qc }.
Definition plain (a : image) : slice_out := Out (rows a) (cols a) (fun i j => Some (px a i j)).
Definition get {A} (k : string) (d : list (string * A)) : result A := match lookup String.eqb k d with Some a => Ok a | None => Err KeyError end.
Definition one_slice (p : params) (l : lib) (d : library) (k : string) : result (option slice_out) :=
  let! fs := get k (l_data d) in
  let! img := normalized p l fs in
  if p_keepflat p || p_normalize p then
    let! fs1 := get k (l_flat1 d) in
    let! flat1 := normalized p l fs1 in
    let! flat2 :=
      match l_flat2 d with
      | None => Ok None
      | Some g => let! fs2 := get k g in let! flat2 := normalized p l fs2 in Ok (Some flat2)
      end in
    if p_normalize p then
      let! flat :=
        match flat2 with
        | None => Ok flat1
        | Some flat2 =>
            match flat1, flat2 with
            | Some a, Some b => let! s := add a b in Ok (Some (Image (rows s) (cols s) (fun i j => px s i j / Qc_of_Z 2)%Qc))
            | _, _ => Ok None
            end
        end in
      match img, flat with
      | Some a, Some b =>
          if (rows a =? rows b) && (cols a =? cols b) then Ok (Some (Out (rows a) (cols a) (fun i j => ratio (px a i j) (px b i j)))) else Err ValueError
      | _, _ => Ok None
      end
    else Ok (option_map plain img)
  else Ok (option_map plain img).
Definition fullfield (p : params) (darkfiles datafiles flatfiles : list file) : result (list (option slice_out)) :=
  let! l := darklibrary p [] darkfiles in
  let! d := dataflatlibrary p datafiles flatfiles in
  mapM (one_slice p l d) (l_order d).
End Library.
