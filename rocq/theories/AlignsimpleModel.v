(* Model of src/spectrocrunch/align/alignSimple.py on the model of math/center.py.  Images are two-dimensional arrays of
   numbers and nan; integers tells whether the dtype is an integer (then no pixel is nan).  The Gaussian fits (center._fit)
   are arbitrary procedures. *)
From Verif Require Import CenterModel.
Local Open Scope Qc_scope.

(* the attribute cval: the object np.nan, another nan (float("nan")) or a number *)
Inductive fill : Type := NpNan | OtherNan | Number (q : Qc).
(* what missing pixels are replaced by: np.nan or 0 *)
Inductive replacement : Type := ByNan | ByZero.
Record picture : Type := { img : image; integers : bool }.
(* 84-115: the classes *)
Inductive marker : Type := Centroid | Min | Gaussmax | Max.
(* align/types.py *)
Inductive transfotype : Type := Translation | Rigid | Similarity | Affine | Projective.

Definition is_missing (cval : fill) (p : datum) : bool :=
  match cval, p with
  | NpNan, None => true
  | Number q, Some v => Qc_eqb v q
  | _, _ => false
  end.
Definition replaced (newval : replacement) : datum := match newval with ByNan => None | ByZero => Some 0 end.
(* 33-55 handle_missing *)
Definition handle_missing (cval : fill) (p : picture) (newval : replacement) : result image :=
  match cval, newval with
  | NpNan, ByNan => Ok (img p)
  | _, _ =>
      let zero := match cval with Number q => Qc_eqb q 0 | _ => false end in
      if zero then Ok (img p)          (* equal to newval, or not looked for *)
      else if existsb (is_missing cval) (flat (img p)) then
        match newval, integers p with
        | ByNan, true => Err ValueError (* nan in an array of integers *)
        | _, _ => Ok {| ny := ny (img p); nx := nx (img p);
                        pix := fun i j => if is_missing cval (pix (img p) i j) then replaced newval else pix (img p) i j |}
        end
      else Ok (img p)
  end.

Section Simple.
Variable fit1 : list datum -> datum.
Variable fit2 : image -> datum * datum.
Variable cval : fill.
Variable xytype : marker.

Definition threshold : Qc := Q2Qc (9 # 10).
Definition number (n : nat) : datum := Some (of_nat n).
(* data.size in data.shape *)
Definition oneD (d : image) : bool := (ny d * nx d =? ny d)%nat || (ny d * nx d =? nx d)%nat.
(* math/center.py for data with one dimension *)
Definition locate1 (d : image) : result datum :=
  match xytype with
  | Centroid => fcentroid1 (flat d)
  | Min => let! i := fmin1 (flat d) in Ok (number i)
  | Gaussmax => foptimize1 (flat d) fit1 threshold
  | Max => let! i := fmax1 (flat d) in Ok (number i)
  end.
Definition locate2 (d : image) : result (datum * datum) :=
  match xytype with
  | Centroid => fcentroid2 d
  | Min => let! (y, x) := fmin2 d in Ok (number y, number x)
  | Gaussmax => foptimize2 d fit2 threshold
  | Max => let! (y, x) := fmax2 d in Ok (number y, number x)
  end.
(* 57-75 getxy: first the column, then the row *)
Definition getxy (p : picture) : result (datum * datum) :=
  let! d := handle_missing cval p (match xytype with Centroid => ByZero | _ => ByNan end) in
  if oneD d then
    let! k := locate1 d in
    Ok (if (ny d =? 1)%nat then (k, Some 0) else (Some 0, k))
  else
    let! (y, x) := locate2 d in Ok (x, y).

(* 12-14: the positions in the reference and in the last image *)
Record state : Type := { fixedxy : option (datum * datum); movingxy : option (datum * datum) }.
(* 77-82 set_reference *)
Definition set_reference (st : state) (p : picture) (previous : bool) : result state :=
  if previous then Ok {| fixedxy := movingxy st; movingxy := movingxy st |}
  else let! xy := getxy p in Ok {| fixedxy := Some xy; movingxy := movingxy st |}.
Definition minus (a b : datum) : datum := match a, b with Some x, Some y => Some (x - y) | _, _ => None end.
(* 23-31 execute_alignkernel: the translation (x, y) the image is transformed with *)
Definition execute_alignkernel (type : transfotype) (st : state) (p : picture) : state * result (datum * datum) :=
  match type with
  | Translation =>
      match getxy p with
      | Err e => (st, Err e)
      | Ok xy =>
          let st := {| fixedxy := fixedxy st; movingxy := Some xy |} in
          (st, match fixedxy st with
               | None => Err TypeError                    (* array - None *)
               | Some f => Ok (minus (fst xy) (fst f), minus (snd xy) (snd f))
               end)
      end
  | _ => (st, Err NotImplementedError)
  end.
End Simple.
(* align/transform.py 64-70, scipy.ndimage.shift for whole numbers of pixels: the pixel at the old position, missing
   outside of the image *)
Definition shifted (missing : datum) (d : image) (tx ty : Z) : image :=
  {| ny := ny d; nx := nx d;
     pix := fun i j =>
       let y := (Z.of_nat i + ty)%Z in
       let x := (Z.of_nat j + tx)%Z in
       if (0 <=? y)%Z && (y <? Z.of_nat (ny d))%Z && (0 <=? x)%Z && (x <? Z.of_nat (nx d))%Z
       then pix d (Z.to_nat y) (Z.to_nat x) else missing |}.
