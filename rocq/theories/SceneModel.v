(* Model of the geometry of scenes: visualization/scene.py (class Scene, the limits of Image and Scatter) and
   scene_modifyaxes of process/scenevis.py.
   Every data axis has one unit in which all magnitudes are expressed; rounding and drawing are not modelled.
   Where numpy divides by zero (with a warning, giving inf or nan) the model gives [Err not_finite]. *)
From Verif Require Export Base QcTac.
From Coq Require Export String.
Local Open Scope list_scope.
Local Open Scope Qc_scope.

Definition not_finite : exn := UserError 1.
Definition q_div (a b : Qc) : result Qc := if Qc_eqb b 0 then Err not_finite else Ok (a / b).

(* scene.py:101-104: the state of one data axis: dataoffset, datascale, _increasing *)
Record axis : Type := { offset : Qc; scaling : Qc; increasing : bool }.
(* scene.py:524-543 Image: the two limits and the number of pixels of each data dimension;
   1175-1190 Scatter (Polyline, Polygon, Text): coordinates, at least one *)
Inductive item : Type :=
| Image (lim0 lim1 : Qc * Qc) (n0 n1 : nat)
| Scatter (c0 c1 : Qc * list Qc).
(* scene.py:88-104. Axis 0 is [false], axis 1 is [true] *)
Record scene : Type := { axis0 : axis; axis1 : axis; transposed : bool; items : list item;
  unit0 : string; unit1 : string; aspect : option Qc }.
(* scene.py:88-104 __init__ *)
Definition new_axis : axis := {| offset := 0; scaling := 1; increasing := true |}.
Definition new_scene (u0 u1 : string) (l : list item) : scene :=
  {| axis0 := new_axis; axis1 := new_axis; transposed := false; items := l; unit0 := u0; unit1 := u1; aspect := None |}.

Definition get_axis (sc : scene) (k : bool) : axis := if k then axis1 sc else axis0 sc.
Definition set_axis (sc : scene) (k : bool) (a : axis) : scene :=
  {| axis0 := if k then axis0 sc else a; axis1 := if k then a else axis1 sc; transposed := transposed sc; items := items sc;
     unit0 := unit0 sc; unit1 := unit1 sc; aspect := aspect sc |}.
(* 58-72 dataaxis: x is display axis 1 *)
Definition dataaxis (sc : scene) (displayaxis : bool) : bool := if transposed sc then negb displayaxis else displayaxis.
(* 74-82 *)
Definition dataaxisx (sc : scene) : bool := dataaxis sc true.
Definition dataaxisy (sc : scene) : bool := dataaxis sc false.
(* 114-116 strunits *)
Definition strunits (sc : scene) (k : bool) : string := if k then unit1 sc else unit0 sc.
(* 156-162 *)
Definition strxunit (sc : scene) : string := strunits sc (dataaxisx sc).
Definition stryunit (sc : scene) : string := strunits sc (dataaxisx sc).
(* 207-208 *)
Definition transpose (sc : scene) (tr : bool) : scene :=
  {| axis0 := axis0 sc; axis1 := axis1 sc; transposed := tr; items := items sc; unit0 := unit0 sc; unit1 := unit1 sc; aspect := aspect sc |}.

(* 278-280 datatransform *)
Definition datatransform (sc : scene) (k : bool) (x : Qc) : Qc := x * scaling (get_axis sc k) - offset (get_axis sc k).
(* min() and max() of a list with a first element *)
Definition q_min (x : Qc) (l : list Qc) : Qc := fold_left Qc_min l x.
Definition q_max (x : Qc) (l : list Qc) : Qc := fold_left Qc_max l x.
(* min() and max() of a list: ValueError when empty *)
Definition minmax (l : list Qc) : result (Qc * Qc) :=
  match l with [] => Err ValueError | x :: l' => Ok (q_min x l', q_max x l') end.
(* 728-734 Image.datarange, 1196-1198 Scatter.datarange *)
Definition datarange1 (sc : scene) (k : bool) (it : item) : list Qc :=
  match it with
  | Image l0 l1 _ _ => let l := if k then l1 else l0 in [datatransform sc k (fst l); datatransform sc k (snd l)]
  | Scatter c0 c1 => let c := if k then c1 else c0 in
    let x := datatransform sc k (fst c) in let l := map (datatransform sc k) (snd c) in [q_min x l; q_max x l]
  end.
(* 229-231 *)
Definition datarange (sc : scene) (k : bool) : result (Qc * Qc) := minmax (flat_map (datarange1 sc k) (items sc)).
(* 233-240 *)
Definition setdatarange (sc : scene) (k : bool) (ran : Qc * Qc) : result scene :=
  let sc0 := set_axis sc k {| offset := 0; scaling := 1; increasing := increasing (get_axis sc k) |} in
  let! org := datarange sc0 k in
  let! s := q_div (snd ran - fst ran) (snd org - fst org) in
  Ok (set_axis sc k {| offset := s * fst org - fst ran; scaling := s; increasing := increasing (get_axis sc k) |}).
(* 242-244 *)
Definition resetdatarange (sc : scene) : scene :=
  let sc := set_axis sc false {| offset := 0; scaling := 1; increasing := increasing (axis0 sc) |} in
  set_axis sc true {| offset := 1; scaling := 1; increasing := increasing (axis1 sc) |}.
Definition set_increasing (sc : scene) (k : bool) (b : bool) : scene :=
  set_axis sc k {| offset := offset (get_axis sc k); scaling := scaling (get_axis sc k); increasing := b |}.
(* 246-250 *)
Definition increasingx (sc : scene) (b : bool) : scene := set_increasing sc (dataaxisx sc) b.
Definition increasingy (sc : scene) (b : bool) : scene := set_increasing sc (dataaxisy sc) b.
(* 258-265 _flipaxis *)
Definition flipaxis (sc : scene) (k : bool) (inc : option bool) : result scene :=
  match inc with
  | None => Ok (set_increasing sc k (negb (increasing (get_axis sc k))))
  | Some b => if Bool.eqb b (increasing (get_axis sc k))
    then let! r := datarange sc k in setdatarange sc k (snd r, fst r)
    else Ok (set_increasing sc k (negb (increasing (get_axis sc k))))
  end.
(* 252-256 *)
Definition flipx (sc : scene) (inc : option bool) : result scene := flipaxis sc (dataaxisx sc) inc.
Definition flipy (sc : scene) (inc : option bool) : result scene := flipaxis sc (dataaxisy sc) inc.
(* 267-268 *)
Definition origin (sc : scene) (k : bool) (off : Qc) : scene :=
  set_axis sc k {| offset := off - offset (get_axis sc k); scaling := scaling (get_axis sc k); increasing := increasing (get_axis sc k) |}.
(* 270-272 *)
Definition originreset (sc : scene) : scene := origin (origin sc false 0) true 0.
(* 274-276 *)
Definition originzero (sc : scene) : result scene :=
  let! r0 := datarange sc false in
  let sc := origin sc false (fst r0) in
  let! r1 := datarange sc true in
  Ok (origin sc true (fst r1)).

(* 728-742 Image.datalimx/datalimy: with half a pixel on both sides; 511-517 the others *)
Definition datalim (sc : scene) (k : bool) (it : item) : result (list Qc) :=
  match it with
  | Image l0 l1 n0 n1 =>
    let l := if k then l1 else l0 in
    let n := if k then n1 else n0 in
    let a := datatransform sc k (fst l) in
    let b := datatransform sc k (snd l) in
    let! d := q_div (b - a) (Qc_of_Z (2 * (Z.of_nat n - 1))) in
    Ok [a - d; b + d]
  | Scatter _ _ => Ok (datarange1 sc k it)
  end.
(* 282-297 displaylim, displaylimx (k the data axis of x), displaylimy *)
Definition displaylim (sc : scene) (k : bool) : result (Qc * Qc) :=
  let! ls := mapM (datalim sc k) (items sc) in
  let! r := minmax (List.concat ls) in
  Ok (if increasing (get_axis sc k) then (fst r, snd r) else (snd r, fst r)).
Definition displaylimx (sc : scene) : result (Qc * Qc) := displaylim sc (dataaxisx sc).
Definition displaylimy (sc : scene) : result (Qc * Qc) := displaylim sc (dataaxisy sc).
(* 315-321 *)
Definition aspectratio_data (sc : scene) : result Qc :=
  let! y := displaylimy sc in
  let! x := displaylimx sc in
  q_div (Qc_abs (snd y - fst y)) (Qc_abs (snd x - fst x)).
(* 298-302: None is no correction *)
Definition aspectcorrect (sc : scene) : result (option Qc) :=
  match aspect sc with
  | None => Ok None
  | Some r => let! d := aspectratio_data sc in let! c := q_div r d in Ok (Some c)
  end.
(* 304-309 *)
Definition aspectratio (sc : scene) : result Qc :=
  match aspect sc with None => aspectratio_data sc | Some r => Ok r end.
(* 311-313 *)
Definition set_aspect (sc : scene) (r : Qc) : scene :=
  {| axis0 := axis0 sc; axis1 := axis1 sc; transposed := transposed sc; items := items sc; unit0 := unit0 sc; unit1 := unit1 sc; aspect := Some r |}.

(* scenevis.py:17-31 scene_modifyaxes; the parameters *)
Record modify : Type := { m_originzero : bool; m_transpose : bool; m_flipx : bool; m_incx : option bool; m_flipy : bool; m_incy : option bool;
  m_aspect : option Qc }.
Definition modifyaxes (sc : scene) (p : modify) : result scene :=
  let! sc := (if m_originzero p then originzero sc else Ok sc) in
  let sc := if m_transpose p then transpose sc true else sc in
  let! sc := (if m_flipx p then flipx sc (m_incx p) else
              match m_incx p with Some true => Ok (increasingx sc true) | _ => Ok sc end) in
  let! sc := (if m_flipy p then flipy sc (m_incy p) else
              match m_incy p with Some true => Ok (increasingy sc true) | _ => Ok sc end) in
  Ok (match m_aspect p with Some r => set_aspect sc r | None => sc end).
