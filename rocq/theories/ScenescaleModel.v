(* Model of the colour scaling and the channels of the images of a scene: visualization/scene.py (Image.channels, labels, data,
   selfscale, Scene.vminmax) and scene_globalscaling of process/scenevis.py.
   [None] is nan. The percentiles of Image.vminmax, colorbar_units and rounding are not modelled. Python 3 is assumed (range is no list). *)
From Verif Require Export Base QcTac.
From Coq Require Export String.
Local Open Scope list_scope.
Local Open Scope nat_scope.

(* scene.py:719 the setting "channels": None, one channel, a list (changed in place) or a tuple. A channel can be None *)
Inductive chsetting : Type := ChDefault | ChOne (i : Z) | ChList (l : list (option Z)) | ChTuple (l : list (option Z)).
(* 602-621: the number of channels for n candidates *)
Definition nchannels (n : nat) : nat := let m := Nat.min n 3 in if m =? 1 then 1 else 3.
(* 602-621 channels: the setting afterwards and the channels *)
Definition channels (depth : nat) (s : chsetting) : chsetting * result (list (option Z)) :=
  match s with
  | ChDefault => let n := nchannels depth in
    if depth <? n then
      (* min(depth, 3) < n: a range has no attribute extend *)
      (s, Err AttributeError)
    else (s, Ok (map (fun i => Some (Z.of_nat i)) (firstn n (seq 0 (Nat.min depth 3)))))
  | ChOne i => (s, Ok [Some i])
  | ChList l => let n := nchannels (List.length l) in
    if List.length l <? n then let l2 := l ++ repeat None (n - List.length l) in (ChList l2, Ok l2)
    else (s, Ok (firstn n l))
  | ChTuple l => let n := nchannels (List.length l) in
    if List.length l <? n then (s, Err AttributeError) else (s, Ok (firstn n l))
  end.
(* 585-596 labels *)
Definition label {A} (empty : A) (labels : list A) (c : option Z) : option A :=
  match c with None => None | Some i => match py_get labels i with Ok x => Some x | Err _ => Some empty end end.
(* 565-575 _get_data: raw data with one channel (2D) or several (3D), for one pixel *)
Inductive pixel : Type := Px2 (v : Qc) | Px3 (l : list Qc).
Definition get_data (p : pixel) (i : Z) : result Qc :=
  match p with
  | Px3 l => py_get l i
  | Px2 v => if (i =? 0)%Z then Ok v else Err IndexError
  end.
(* 549-563 data: 0 where no channel is selected *)
Definition data (p : pixel) (cs : list (option Z)) : result (list Qc) :=
  mapM (fun c => match c with None => Ok 0%Qc | Some i => get_data p i end) cs.

Definition nan_op (f : Qc -> Qc -> Qc) (a b : option Qc) : option Qc :=
  match a, b with Some x, Some y => Some (f x y) | _, _ => None end.
(* np.nanmin, np.nanmax along one channel *)
Definition nan_best (f : Qc -> Qc -> Qc) (a b : option Qc) : option Qc :=
  match a, b with Some x, Some y => Some (f x y) | Some x, None => Some x | None, b => b end.
Definition nan_column (f : Qc -> Qc -> Qc) (rows : list (list (option Qc))) (c : nat) : option Qc :=
  fold_left (fun acc r => nan_best f acc (nth c r None)) rows None.
(* 343-365 Scene.vminmax: the items that have vminmax, one number per channel, as many minima as maxima *)
Definition vminmax (its : list (list (option Qc) * list (option Qc))) : option (list (option Qc) * list (option Qc)) :=
  match its with
  | [] => None
  | _ :: _ =>
    let n := list_max (map (fun it => List.length (fst it)) its) in
    let reshape v := v ++ repeat None (n - List.length v) in
    let vmin := map (fun it => reshape (fst it)) its in
    let vmax := map (fun it => reshape (snd it)) its in
    Some (map (nan_column Qc_min vmin) (seq 0 n), map (nan_column Qc_max vmax) (seq 0 n))
  end.

(* a number or a sequence of numbers *)
Inductive fraction : Type := POne (q : Qc) | PMany (l : list Qc).
(* 667-680 _pminmaxparse for several channels: one fraction per channel, 0 when missing *)
Definition pminmaxparse (p : fraction) (n : nat) : list Qc :=
  match p with
  | POne q => repeat q n
  | PMany l => if List.length l <? n then l ++ repeat 0%Qc (n - List.length l) else firstn n l
  end.
Fixpoint map2 {A B C} (f : A -> B -> C) (l : list A) (m : list B) : list C :=
  match l, m with a :: l', b :: m' => f a b :: map2 f l' m' | _, _ => [] end.
Definition window (v d : list (option Qc)) (p : list Qc) : list (option Qc) :=
  map2 (fun x y => nan_op Qcplus x y) v (map2 (fun y q => nan_op Qcmult y (Some q)) d p).
(* 682-690 selfscale for an image with several channels: the settings vmin and vmax *)
Definition selfscale (vmin vmax : list (option Qc)) (pmin pmax : fraction) : list (option Qc) * list (option Qc) :=
  let d := map2 (nan_op Qcminus) vmax vmin in
  let hi := window vmin d (pminmaxparse pmax (List.length vmin)) in
  let lo := window vmin d (pminmaxparse pmin (List.length vmin)) in
  (lo, hi).

(* numpy broadcasting of a fraction against n channels (n not 1) *)
Definition broadcast (p : fraction) (n : nat) : result (list Qc) :=
  match p with
  | POne q => Ok (repeat q n)
  | PMany [q] => Ok (repeat q n)
  | PMany l => if List.length l =? n then Ok l else Err ValueError
  end.
(* scenevis.py:34-56 scene_globalscaling: the settings vmin and vmax of the items afterwards; [None] leaves it to the image *)
Definition globalscaling (vv : option (list (option Qc) * list (option Qc))) (old : option (list (option Qc)) * option (list (option Qc)))
    (rlo rhi : option fraction) (alo ahi : option (list (option Qc))) : result (option (list (option Qc)) * option (list (option Qc))) :=
  let! s := (match rlo, rhi with
    | None, None => Ok old
    | _, _ =>
      match vv with
      | None => Err TypeError
      | Some (vmin, vmax) =>
        let d := map2 (nan_op Qcminus) vmax vmin in
        let! lo := (match rlo with
          | None => Ok None
          | Some p => let! q := broadcast p (List.length d) in Ok (Some (window vmin d q))
          end) in
        let! hi := (match rhi with
          | None => Ok None
          | Some p => let! q := broadcast p (List.length d) in
            match lo with None => Err TypeError | Some lo => Ok (Some (window lo d q)) end
          end) in
        Ok (lo, hi)
      end
    end) in
  match alo, ahi with
  | None, None => Ok s
  | _, _ => Ok (alo, ahi)
  end.
