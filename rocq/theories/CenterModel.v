(* Model of src/spectrocrunch/math/center.py. A value is a number or nan (None). One-dimensional data are
   lists (numpy: data.flat), two-dimensional data have a shape and a value at each position; data with a
   single row or column, or without values, are one-dimensional to the code. A result that is not finite is None.
   Not modelled: the Gaussian fits (_fit); foptimize takes any procedure. *)
From Verif Require Export Base QcTac.
Local Open Scope Qc_scope.

Definition datum : Type := option Qc.
(* np.nanargmax: the first of the greatest; ValueError for nothing but nan *)
Fixpoint nanargmax_from (i : nat) (best : option (nat * Qc)) (l : list datum) : option (nat * Qc) :=
  match l with
  | [] => best
  | None :: l' => nanargmax_from (S i) best l'
  | Some v :: l' =>
      nanargmax_from (S i) (match best with Some (_, m) => if Qc_ltb m v then Some (i, v) else best | None => Some (i, v) end) l'
  end.
Definition nanmax (l : list datum) : result (nat * Qc) :=
  match nanargmax_from 0 None l with Some r => Ok r | None => Err ValueError end.
(* np.nanargmin *)
Definition opp_datum (v : datum) : datum := option_map Qcopp v.
(* 6-10 *)
Definition fmax1 (l : list datum) : result nat := let! (i, _) := nanmax l in Ok i.
Definition fmin1 (l : list datum) : result nat := let! (i, _) := nanmax (map opp_datum l) in Ok i.

Record image : Type := { ny : nat; nx : nat; pix : nat -> nat -> datum }.
Definition flat (d : image) : list datum := map (fun k => pix d (k / nx d) (k mod nx d)) (seq 0 (ny d * nx d)).
(* np.unravel_index *)
Definition fmax2 (d : image) : result (nat * nat) := let! i := fmax1 (flat d) in Ok (i / nx d, i mod nx d)%nat.
Definition fmin2 (d : image) : result (nat * nat) := let! i := fmin1 (flat d) in Ok (i / nx d, i mod nx d)%nat.

Definition nadd (a b : datum) : datum := match a, b with Some x, Some y => Some (x + y) | _, _ => None end.
Definition nscale (c : Qc) (a : datum) : datum := option_map (Qcmult c) a.
Definition ndiv (a b : datum) : datum := match a, b with Some x, Some y => if Qc_eqb y 0 then None else Some (x / y) | _, _ => None end.
Definition nsum (l : list datum) : datum := fold_right nadd (Some 0) l.
Definition of_nat (n : nat) : Qc := Qc_of_Z (Z.of_nat n).
(* 20-23 *)
Definition centroid1 (l : list datum) : datum :=
  ndiv (nsum (map (fun p => nscale (of_nat (fst p)) (snd p)) (combine (seq 0 (length l)) l))) (nsum l).
(* 24-30: the sums over all positions; x is the column and y the row *)
Definition positions (h w : nat) : list (nat * nat) := flat_map (fun i => map (fun j => (i, j)) (seq 0 w)) (seq 0 h).
Definition centroid2 (d : image) : datum * datum :=
  let p := positions (ny d) (nx d) in
  let sum := nsum (map (fun c => pix d (fst c) (snd c)) p) in
  let cx := ndiv (nsum (map (fun c => nscale (of_nat (snd c)) (pix d (fst c) (snd c))) p)) sum in
  let cy := ndiv (nsum (map (fun c => nscale (of_nat (fst c)) (pix d (fst c) (snd c))) p)) sum in
  (cx, cy).

(* comparisons with nan are false *)
Definition exceeds (v : datum) (t : Qc) : bool := match v with Some x => Qc_ltb t x | None => false end.
Definition falls_short (v : datum) (t : Qc) : bool := match v with Some x => Qc_ltb x t | None => false end.
(* 60-67; at most length data turns *)
Fixpoint grow1 (fuel : nat) (data : list datum) (thres : Qc) (a b : nat) : nat * nat :=
  match fuel with
  | O => (a, b)
  | S f =>
      if exceeds (nth a data None) thres && exceeds (nth b data None) thres then
        match a with
        | O => (a, b)
        | S a' => if (length data <=? S b)%nat then (a, b) else grow1 f data thres a' (S b)
        end
      else (a, b)
  end.
Definition slice {A} (l : list A) (a b : nat) : list A := firstn (b - a) (skipn a l).
(* 52-71 for one dimension *)
Definition foptimize1 (data : list datum) (proc : list datum -> datum) (threshold : Qc) : result datum :=
  let! (shift, m) := nanmax data in
  let thres := threshold * m in
  let '(a, b) := grow1 (length data) data thres shift shift in
  if negb (a =? b)%nat then Ok (nadd (proc (slice data a (S b))) (Some (of_nat a))) else Ok (Some (of_nat shift)).
(* data[y - off : y + off + 1, x - off : x + off + 1] *)
Definition window (d : image) (y x off : nat) : image :=
  {| ny := off + off + 1; nx := off + off + 1; pix := fun i j => pix d (y - off + i) (x - off + j) |}.
(* 73-88 *)
Fixpoint grow2 (fuel : nat) (d : image) (thres : Qc) (y x off : nat) : nat :=
  match fuel with
  | O => off
  | S f =>
      if existsb (fun v => falls_short v thres) (flat (window d y x off)) then off
      else if (y <? S off)%nat || (x <? S off)%nat || (ny d <=? y + S off)%nat || (nx d <=? x + S off)%nat then off
      else grow2 f d thres y x (S off)
  end.
(* 52-54, 72-100 for two dimensions *)
Definition foptimize2 (d : image) (proc : image -> datum * datum) (threshold : Qc) : result (datum * datum) :=
  let! (_, m) := nanmax (flat d) in
  let! (y, x) := fmax2 d in
  let thres := threshold * m in
  let off := grow2 (ny d) d thres y x 0 in
  if negb (off =? 0)%nat then
    let '(p0, p1) := proc (window d y x off) in
    Ok (nadd (nadd (Some (of_nat y)) p0) (Some (- of_nat off)), nadd (nadd (Some (of_nat x)) p1) (Some (- of_nat off)))
  else Ok (Some (of_nat y), Some (of_nat x)).
(* 103-104 *)
Definition fcentroid1 (data : list datum) : result datum := foptimize1 data centroid1 (Q2Qc (9 # 10)).
Definition fcentroid2 (d : image) : result (datum * datum) := foptimize2 d centroid2 (Q2Qc (9 # 10)).
