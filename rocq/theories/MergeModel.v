(* Model of merging scans into virtual data sets:
   src/spectrocrunch/process/h5merge.py 31-52 (match_shapes), 55-61 (layout_slicing), 64-65 (max_shape),
   68-91 (tile_indices), 94-159 (stack_h5datasets), 162-217 (tile_h5datasets), 334-345 (shape_map of a mesh),
   and src/spectrocrunch/math/utils.py 73-77 (lcm) on numpy integers.
   The elements of a virtual data set are those of the selection in the source, both in C order,
   as HDF5 maps them. Data types, links, groups and files are not modelled. numpy integer division
   by zero gives 0 (with a warning), as division of nat does here. *)
From Verif Require Export GridModel.
Local Open Scope nat_scope.

Definition prod (l : list nat) : nat := fold_right Nat.mul 1 l.
(* math/utils.py 73-77 on numpy integers *)
Definition np_lcm (l : list nat) : nat := fold_left (fun m i => m * i / Nat.gcd m i) l 1.
Fixpoint list_min (a : nat) (l : list nat) : nat :=
  match l with [] => a | b :: l' => list_min (Nat.min a b) l' end.
(* shape[:-1] is removelast *)
Definition match_shapes (shapes : list (list nat)) (keep : bool) : result (list (list nat)) :=
  match map prod shapes with
  | [] => Err IndexError
  | s0 :: sizes =>
      if forallb (Nat.eqb s0) sizes then Ok (if keep then shapes else map (fun _ => []) shapes)
      else
        let max_size := list_min s0 sizes in
        let chunk_size := np_lcm (map (fun s => prod (removelast s)) shapes) in
        let n_chunks := max_size / chunk_size in
        if n_chunks =? 0 then Err ValueError
        else Ok (map (fun s => let new := removelast s ++ [n_chunks * chunk_size / prod (removelast s)] in
                               if shape_eqb s new then [] else new) shapes)
  end.

(* selections: offset and extent in each dimension; missing dimensions are selected as a whole *)
Definition box : Type := list (nat * nat).
Definition from_zero (sh : list nat) : box := map (fun n => (0, n)) sh.
(* 55-61 *)
Definition layout_slicing (source layout : list nat) : result (box * box) :=
  let! r := match_shapes [source; layout] false in
  match r with
  | [a; b] => Ok (from_zero a, from_zero b)
  | _ => Err ValueError
  end.
(* 64-65: shapes of different lengths do not make an array *)
Fixpoint map2 {A B C} (f : A -> B -> C) (l1 : list A) (l2 : list B) : list C :=
  match l1, l2 with
  | a :: l1', b :: l2' => f a b :: map2 f l1' l2'
  | _, _ => []
  end.
Definition max_shape (shapes : list (list nat)) : result (list nat) :=
  match shapes with
  | [] => Err ValueError
  | s0 :: rest => if forallb (fun s => length s =? length s0) rest then Ok (fold_left (map2 Nat.max) rest s0) else Err ValueError
  end.
(* product of two vectors, with numpy's broadcasting *)
Definition np_mul (a b : list nat) : result (list nat) :=
  if length a =? length b then Ok (map2 Nat.mul a b)
  else match a, b with
       | [x], _ => Ok (map (Nat.mul x) b)
       | _, [y] => Ok (map (fun x => x * y) a)
       | _, _ => Err ValueError
       end.
(* position in C order, and back *)
Fixpoint rank (sh idx : list nat) : nat :=
  match sh, idx with
  | _ :: sh', i :: idx' => i * prod sh' + rank sh' idx'
  | _, _ => 0
  end.
Fixpoint unrank (sh : list nat) (r : nat) : list nat :=
  match sh with
  | [] => []
  | _ :: sh' => r / prod sh' :: unrank sh' (r mod prod sh')
  end.
(* np.unravel_index for one of a list of positions *)
Definition unravel_index (fortran : bool) (sh : list nat) (r : nat) : result (list nat) :=
  match sh with
  | [] => Err ValueError
  | _ => if r <? prod sh then Ok (if fortran then rev (unrank (rev sh) r) else unrank sh r) else Err ValueError
  end.
Fixpoint mapM {A B} (f : A -> result B) (l : list A) : result (list B) :=
  match l with
  | [] => Ok []
  | a :: l' => let! b := f a in let! r := mapM f l' in Ok (b :: r)
  end.
(* 68-91 *)
Definition tile_box (tile_index dmax sh : list nat) : box :=
  map2 (fun (p : nat * nat) n => (fst p * snd p, n)) (combine tile_index dmax) sh.
Definition tile_indices (fortran : bool) (tile_shape : list nat) (shapes : list (list nat)) : result (list nat * list box) :=
  let! dmax := max_shape shapes in
  let! layout := np_mul dmax tile_shape in
  let! ind := mapM (unravel_index fortran tile_shape) (seq 0 (length shapes)) in
  Ok (layout, map2 (fun t s => tile_box t dmax s) ind shapes).

(* ---- virtual data sets ---- *)
Definition offsets (b : box) : list nat := map fst b.
Definition extents (b : box) : list nat := map snd b.
(* slices are cut at the end; too many of them are refused *)
Definition clip (b : box) (sh : list nat) : result box :=
  if length sh <? length b then Err TypeError
  else Ok (map2 (fun (p : nat * nat) n => (Nat.min (fst p) n, Nat.min (fst p + snd p) n - Nat.min (fst p) n)) b sh ++ from_zero (skipn (length b) sh)).
Fixpoint in_box (b : box) (idx : list nat) : bool :=
  match b, idx with
  | [], [] => true
  | (o, e) :: b', i :: idx' => (o <=? i) && (i <? o + e) && in_box b' idx'
  | _, _ => false
  end.
Definition local (b : box) (idx : list nat) : list nat := map2 Nat.sub idx (offsets b).
(* layout[lbox] = source[sbox] *)
Definition mapping {A} (lsh : list nat) (lbox : box) (src : arr A) (sbox : box) : result (list nat -> option A) :=
  let! lb := clip lbox lsh in
  let! sb := clip sbox (shape src) in
  if prod (extents lb) =? prod (extents sb)
  then Ok (fun idx => if in_box lb idx
                      then Some (at_ src (map2 Nat.add (offsets sb) (unrank (extents sb) (rank (extents lb) (local lb idx)))))
                      else None)
  else Err ValueError.
(* create_virtual_dataset *)
Definition virtual {A} (lsh : list nat) (fill : A) (maps : list (list nat -> option A)) : arr A :=
  mkArr lsh (fun idx => fold_left (fun v m => match m idx with Some x => x | None => v end) maps fill).

(* ---- the shapes of scans: keys are tuples or numbers ---- *)
Inductive key : Type := KTuple (l : list nat) | KInt (n : nat).
Definition key_eqb (a b : key) : bool :=
  match a, b with
  | KTuple l, KTuple l' => shape_eqb l l'
  | KInt n, KInt n' => n =? n'
  | _, _ => false
  end.
Definition shape_map : Type := list (key * list nat).
Definition lookup (m : shape_map) (k : list nat) : list nat :=
  match find (fun p => key_eqb (fst p) (KTuple k)) m with Some (_, v) => v | None => k end.
(* 334-345: a mesh of fast times slow points *)
Definition mesh_map (fast slow : nat) : shape_map := [(KInt (fast * slow), [fast; slow])].

(* 94-159; scalar data sets become a list of values, of texts only one is kept *)
Inductive merged (A : Type) : Type := Virtual (a : arr A) | Values (l : list A) | Value (x : A).
Arguments Virtual {A}. Arguments Values {A}. Arguments Value {A}.
Definition full_box (i : nat) (b : box) : box := (i, 1) :: b.
Fixpoint stack_maps {A} (shape_ : list nat) (i : nat) (sources : list (arr A)) : result (list (list nat -> option A)) :=
  match sources with
  | [] => Ok []
  | d :: rest =>
      let! (sidx, lidx) := layout_slicing (shape d) (rev (skipn 1 shape_)) in
      let! m := mapping shape_ (full_box i (rev lidx)) d sidx in
      let! r := stack_maps shape_ (S i) rest in
      Ok (m :: r)
  end.
Definition stack {A} (text end_time : bool) (fill : A) (sm : shape_map) (nscandim : nat) (no_stack : bool)
    (sources : list (arr A)) : result (merged A) :=
  let! dshape := max_shape (map shape sources) in
  match dshape with
  | [] =>
      let vals := map (fun d => at_ d []) sources in
      if text then match (if end_time then rev vals else vals) with v :: _ => Ok (Value v) | [] => Err IndexError end
      else Ok (Values vals)
  | _ =>
      let data_shape := skipn nscandim dshape in
      let scan_shape := rev (lookup sm (firstn nscandim dshape)) in
      match no_stack, sources with
      | true, [d] =>
          let sh := scan_shape ++ data_shape in
          let! (sidx, lidx) := layout_slicing (shape d) (rev sh) in
          let! m := mapping sh (rev lidx) d sidx in
          Ok (Virtual (virtual sh fill [m]))
      | _, _ =>
          let sh := length sources :: scan_shape ++ data_shape in
          let! maps := stack_maps sh 0 sources in
          Ok (Virtual (virtual sh fill maps))
      end
  end.

(* 162-217 *)
Definition pair_shapes (r : list (list nat)) : result (list nat * list nat) :=
  match r with [a; b] => Ok (a, b) | _ => Err ValueError end.
Fixpoint tile_maps {A} (lsh : list nat) (boxes : list box) (sources : list (arr A)) (reduced dets : list (list nat))
  : result (list (list nat -> option A)) :=
  match boxes, sources, reduced, dets with
  | b :: boxes', d :: sources', r :: reduced', det :: dets' =>
      let det_idx := from_zero det in
      let rs := r ++ det in
      let sbox := if shape_eqb rs (shape d) then [] else from_zero rs ++ det_idx in
      let! m := mapping lsh (b ++ det_idx) d sbox in
      let! l := tile_maps lsh boxes' sources' reduced' dets' in
      Ok (m :: l)
  | _, _, _, _ => Ok []
  end.
Definition tile {A} (fill : A) (sm : shape_map) (tile_shape : list nat) (nscandim : nat) (sources : list (arr A)) : result (arr A) :=
  let scans := map (fun d => firstn nscandim (shape d)) sources in
  let dets := map (fun d => skipn nscandim (shape d)) sources in
  (* the shapes are reversed twice before they are matched *)
  let! pairs := mapM (fun s => let! r := match_shapes [s; lookup sm s] true in pair_shapes r) scans in
  match pairs with
  | [] => Err ValueError              (* zip of nothing cannot be unpacked *)
  | _ =>
      let reduced := map fst pairs in
      let reshaped := map (fun p => rev (snd p)) pairs in
      let! (lscan, boxes) := tile_indices false (rev tile_shape) reshaped in
      let! dmax := max_shape dets in
      let lsh := lscan ++ dmax in
      let! maps := tile_maps lsh boxes sources reduced dets in
      Ok (virtual lsh fill maps)
  end.
