(* Model of regular grids processed as a whole or slice by slice, and of cropping:
   src/spectrocrunch/process/regulargrid.py 39-81 (sliceinfo),
   src/spectrocrunch/process/nxregulargrid.py 73-125 (_execute_grid, _prepare_process), 160-200,
   src/spectrocrunch/process/h5regulargrid.py 52-62 (position of the axis of signals),
   src/spectrocrunch/process/nxcrop.py 22-112, nxreplace.py 6-17.
   Arrays are functions of the index with a shape; data types (and rounding to them), the
   files that hold the arrays and logging are not modelled. *)
From Verif Require Export Base QcTac.
Local Open Scope nat_scope.

(* ---- lists ---- *)
(* list.insert for a position of at least 0 *)
Fixpoint ins {A} (d : nat) (x : A) (l : list A) : list A :=
  match d, l with
  | O, _ => x :: l
  | S d', a :: l' => a :: ins d' x l'
  | S _, [] => [x]
  end.
(* list.insert: a negative position counts from the end, positions outside are clipped *)
Definition py_insert {A} (d : Z) (x : A) (l : list A) : list A :=
  if (d <? 0)%Z then ins (Z.to_nat (d + Z.of_nat (length l))) x l else ins (Z.to_nat d) x l.
Fixpoint del {A} (d : nat) (l : list A) : list A :=
  match d, l with
  | _, [] => []
  | O, _ :: l' => l'
  | S d', a :: l' => a :: del d' l'
  end.
Fixpoint upd {A} (d : nat) (x : A) (l : list A) : list A :=
  match d, l with
  | _, [] => []
  | O, _ :: l' => x :: l'
  | S d', a :: l' => a :: upd d' x l'
  end.
(* a position in a list of n things *)
Definition position (n : nat) (d : Z) : result nat :=
  if (d <? 0)%Z
  then if (d + Z.of_nat n <? 0)%Z then Err IndexError else Ok (Z.to_nat (d + Z.of_nat n))
  else if (Z.of_nat n <=? d)%Z then Err IndexError else Ok (Z.to_nat d).

(* ---- arrays ---- *)
Record arr (A : Type) : Type := mkArr { shape : list nat; at_ : list nat -> A }.
Arguments mkArr {A}. Arguments shape {A}. Arguments at_ {A}.
Definition amap {A B} (f : A -> B) (a : arr A) : arr B := mkArr (shape a) (fun i => f (at_ a i)).

(* what is between the brackets: ":", "a:b", a position; missing items (an ellipsis at the end) are ":" *)
Inductive item : Type := All | Range (a b : Z) | Pos (i : nat).
(* a bound of a slice *)
Definition bound (n : nat) (i : Z) : nat :=
  if (i <? 0)%Z then Z.to_nat (i + Z.of_nat n) else Nat.min (Z.to_nat i) n.
Fixpoint sel_shape (its : list item) (sh : list nat) : result (list nat) :=
  match its, sh with
  | [], _ => Ok sh
  | _ :: _, [] => Err IndexError
  | All :: its', n :: sh' => let! r := sel_shape its' sh' in Ok (n :: r)
  | Range a b :: its', n :: sh' => let! r := sel_shape its' sh' in Ok (bound n b - bound n a :: r)
  | Pos i :: its', n :: sh' => if i <? n then sel_shape its' sh' else Err IndexError
  end.
(* the index in the array of an index in the selection *)
Fixpoint sel_index (its : list item) (sh : list nat) (idx : list nat) : list nat :=
  match its, sh with
  | [], _ | _, [] => idx
  | Pos i :: its', _ :: sh' => i :: sel_index its' sh' idx
  | All :: its', _ :: sh' => match idx with k :: idx' => k :: sel_index its' sh' idx' | [] => [] end
  | Range a _ :: its', n :: sh' => match idx with k :: idx' => bound n a + k :: sel_index its' sh' idx' | [] => [] end
  end.
(* the index in the selection of an index in the array, if it is selected *)
Fixpoint unsel (its : list item) (sh : list nat) (idx : list nat) : option (list nat) :=
  match its, sh with
  | [], _ | _, [] => Some idx
  | it :: its', n :: sh' =>
      match idx with
      | [] => None
      | k :: idx' =>
          match it with
          | All => option_map (cons k) (unsel its' sh' idx')
          | Range a b =>
              if (bound n a <=? k) && (k <? bound n b)
              then option_map (cons (k - bound n a)) (unsel its' sh' idx') else None
          | Pos i => if i =? k then unsel its' sh' idx' else None
          end
      end
  end.
(* a[its] *)
Definition get {A} (its : list item) (a : arr A) : result (arr A) :=
  let! sh := sel_shape its (shape a) in
  Ok (mkArr sh (fun i => at_ a (sel_index its (shape a) i))).
Definition shape_eqb (a b : list nat) : bool :=
  Nat.eqb (length a) (length b) && forallb (fun p => Nat.eqb (fst p) (snd p)) (combine a b).
(* a[its] = v for v of the shape of the selection (broadcasting is not modelled) *)
Definition put {A} (its : list item) (v a : arr A) : result (arr A) :=
  let! sh := sel_shape its (shape a) in
  if shape_eqb sh (shape v)
  then Ok (mkArr (shape a) (fun i => match unsel its (shape a) i with Some j => at_ v j | None => at_ a i end))
  else Err TypeError.

(* ---- regulargrid.py 39-81: the shape of a slice and the index of a slice ---- *)
Definition sliceinfo (sh : list nat) (slicedim : Z) : result (list nat * (nat -> list item)) :=
  let ndim := Z.of_nat (length sh) in
  let d := if (slicedim <? 0)%Z then (slicedim + ndim)%Z else slicedim in
  let maxdim := (ndim - 1)%Z in
  if (d <? 0)%Z || (maxdim <? d)%Z then Err ValueError
  else if (d =? 0)%Z then Ok (skipn 1 sh, fun i => [Pos i])
  else if (d =? maxdim)%Z
       then Ok (firstn (length sh - 1) sh, fun i => repeat All (length sh - 1) ++ [Pos i])
  else let k := Z.to_nat d in
       Ok (firstn k sh ++ skipn (S k) sh,
           fun i => repeat All k ++ [Pos i] ++ repeat All (Z.to_nat (maxdim - d))).

(* ---- h5regulargrid.py 58-62, nxregulargrid.py 176-190: the axis of signals among the others ---- *)
Definition grid_axes {A} (stackdim : Z) (signals : A) (axes : list A) : list A := py_insert stackdim signals axes.
Definition pop {A} (d : Z) (l : list A) : result (list A) := let! k := position (length l) d in Ok (del k l).
Definition signal_axes {A} (stackdim : Z) (axes : list A) : result (list A) := pop stackdim axes.

(* ---- nxregulargrid.py 73-118 for one signal ---- *)
Section Execute.
  Context {A : Type} (process : arr A -> result (arr A)).
  (* 99-105: slice by slice into a data set that exists *)
  Fixpoint slices (k : nat) (i n : nat) (indexin indexout : list item) (din out : arr A) : result (arr A) :=
    match n with
    | O => Ok out
    | S n' =>
        let! d := get (upd k (Pos i) indexin) din in
        let! p := process d in
        let! out' := put (upd k (Pos i) indexout) p out in
        slices k (S i) n' indexin indexout din out'
    end.
  (* a shape for a new data set *)
  Fixpoint sizes (l : list Z) : result (list nat) :=
    match l with
    | [] => Ok []
    | z :: l' => if (z <? 0)%Z then Err ValueError else let! r := sizes l' in Ok (Z.to_nat z :: r)
    end.
  (* outshape: signalout_shape; inshape: signalin_shape *)
  Definition execute (sliced : bool) (stackdim : Z) (inshape : list nat) (outshape : result (list Z))
      (indexin indexout : list item) (fill : A) (din : arr A) : result (arr A) :=
    if sliced then
      let! os := outshape in
      let! sh := sizes os in
      let! ki := position (length inshape) stackdim in
      let! k := position (length indexin) stackdim in
      slices k 0 (nth ki inshape 0) indexin indexout din (mkArr sh (fun _ => fill))
    else let! d := get indexin din in process d.
End Execute.
(* 120-125, 155-184: nothing selected, the same shape *)
Definition execute_grid {A} (process : arr A -> result (arr A)) (sliced : bool) (stackdim : Z) (fill : A) (din : arr A)
  : result (arr A) :=
  let n := length (shape din) in
  execute process sliced stackdim (shape din) (Ok (map Z.of_nat (shape din))) (repeat All n) (repeat All n) fill din.

(* ---- values: a number or NaN ---- *)
Definition cell : Type := option Qc.
(* the parameter: np.nan itself, another object that is not a number, or a number *)
Inductive marker : Type := NpNan | OtherNan | Number (q : Qc).
(* np.isnan(x), or x == marker *)
Definition marked (m : marker) (c : cell) : bool :=
  match m, c with
  | NpNan, None => true
  | Number q, Some v => Qc_eqb v q
  | _, _ => false
  end.
(* nxreplace.py 9-17 *)
Definition replace (old : marker) (new : cell) (a : arr cell) : result (arr cell) :=
  Ok (amap (fun c => if marked old c then new else c) a).

(* ---- nxcrop.py ---- *)
(* 65-80: the mask, slice by slice *)
Fixpoint mask_slices (m : marker) (indexgen : nat -> list item) (g : arr cell) (i n : nat) (mask : arr bool) : result (arr bool) :=
  match n with
  | O => Ok mask
  | S n' =>
      let! img := get (indexgen i) g in
      mask_slices m indexgen g (S i) n' (mkArr (shape mask) (fun j => at_ mask j && negb (marked m (at_ img j))))
  end.
Definition count {A} (p : A -> bool) (l : list A) : nat := length (filter p l).
(* 81-87: the mask at once: no marked values along the stack *)
Definition mask_whole (m : marker) (g : arr cell) (k : nat) : arr bool :=
  mkArr (del k (shape g))
    (fun j => count (fun i => marked m (at_ g (ins k i j))) (seq 0 (nth k (shape g) 0)) =? 0).
Definition mask (sliced : bool) (m : marker) (g : arr cell) (stackdim : Z) : result (arr bool) :=
  if sliced then
    let! (sh, indexgen) := sliceinfo (shape g) stackdim in
    let! k := position (length (shape g)) stackdim in
    mask_slices m indexgen g 0 (nth k (shape g) 0) (mkArr sh (fun _ => true))
  else
    let! k := position (length (shape g)) stackdim in    (* numpy.AxisError is an IndexError *)
    Ok (mask_whole m g k).
(* all indices *)
Fixpoint indices (sh : list nat) : list (list nat) :=
  match sh with
  | [] => [[]]
  | n :: sh' => flat_map (fun k => map (cons k) (indices sh')) (seq 0 n)
  end.
(* 97-98: the number of valid pixels in every line *)
Definition line_counts (mk : arr bool) (d : nat) : list nat :=
  map (fun p => count (fun j => (nth d j 0 =? p) && at_ mk j) (indices (shape mk))) (seq 0 (nth d (shape mk) 0)).
(* 99-105: np.argwhere *)
Fixpoint argwhere (i : nat) (l : list bool) : list nat :=
  match l with [] => [] | b :: l' => if b then i :: argwhere (S i) l' else argwhere (S i) l' end.
Definition line_range (nanfull : bool) (counts : list nat) : result (option (Z * Z)) :=
  let! sel := if nanfull
              then match counts with
                   | [] => Err ValueError
                   | _ => let mx := list_max counts in
                          Ok (if mx =? 0 then map (fun c => negb (c =? 0)) counts else map (fun c => c =? mx) counts)
                   end
              else Ok (map (fun c => negb (c =? 0)) counts) in
  match argwhere 0 sel with
  | [] => Ok None
  | i :: t => Ok (Some (Z.of_nat i, Z.of_nat (last (i :: t) 0%nat) + 1)%Z)
  end.
(* 89-110: dims are the dimensions of the grid that are left, imask the dimension of the mask *)
Fixpoint ranges (nanfull : bool) (mk : arr bool) (stackdim : Z) (nstack : nat) (igrid imask ndims : nat)
  : result (option (list (Z * Z))) :=
  match ndims with
  | O => Ok (Some [])
  | S n =>
      if (Z.of_nat igrid =? stackdim)%Z then
        let! r := ranges nanfull mk stackdim nstack (S igrid) imask n in
        Ok (option_map (cons (0, Z.of_nat nstack)%Z) r)
      else if imask <? length (shape mk) then
        let! r := line_range nanfull (line_counts mk imask) in
        match r with
        | None => Ok None
        | Some ab =>
            let! r := ranges nanfull mk stackdim nstack (S igrid) (S imask) n in
            Ok (option_map (cons ab) r)
        end
      else Err IndexError                  (* np.argwhere of a number has no column *)
  end.
Definition calccroproi (sliced nanfull : bool) (m : marker) (g : arr cell) (stackdim : Z) : result (option (list (Z * Z))) :=
  let! mk := mask sliced m g stackdim in
  let! k := position (length (shape g)) stackdim in
  ranges nanfull mk stackdim (nth k (shape g) 0) 0 0 (length (shape g)).
(* 100-112 *)
Definition convertuserroi (roi : list (Z * Z)) (g : arr cell) (stackdim : Z) : result (list (Z * Z)) :=
  let! k := position (length (shape g)) stackdim in
  Ok (py_insert stackdim (0%Z, Z.of_nat (nth k (shape g) 0%nat)) roi).
(* 22-36: cropped_shape, indexin, indexout; without a roi the shape is never set *)
Definition prepare (roi : option (list (Z * Z))) (n : nat) : result (list Z) * list item * list item :=
  match roi with
  | Some r => (Ok (map (fun ab => (snd ab - fst ab)%Z) r), map (fun ab => Range (fst ab) (snd ab)) r, map (fun _ => All) r)
  | None => (Err AttributeError, repeat All n, repeat All n)
  end.
Definition crop {A} (sliced : bool) (stackdim : Z) (roi : option (list (Z * Z))) (fill : A) (din : arr A) : result (arr A) :=
  let '(outshape, indexin, indexout) := prepare roi (length (shape din)) in
  execute (fun d => Ok d) sliced stackdim (shape din) outshape indexin indexout fill din.
(* 38-49: the axes, as lists of positions *)
Definition slice_axis {A} (ax : list A) (a b : Z) : list A :=
  let n := length ax in firstn (bound n b - bound n a) (skipn (bound n a) ax).
Definition crop_axes {A} (roi : option (list (Z * Z))) (axes : list (list A)) : list (list A) :=
  match roi with
  | None => axes
  | Some r => map (fun p => let '(ax, (a, b)) := p in
                            if (Z.of_nat (length ax) =? b - a)%Z then ax else slice_axis ax a b) (combine axes r)
  end.
