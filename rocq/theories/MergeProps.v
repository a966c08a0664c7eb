From Verif Require Import GridSpec MergeModel MergeSpec MergeProofs MergeTopProofs MergeTileProofs.
Local Open Scope nat_scope.

(* ---- C69: shapes cut to a common size ---- *)
Theorem C69_equal : forall shapes keep, shapes <> [] -> (exists S, Forall (fun s => prod s = S) shapes) ->
  match_shapes shapes keep = Ok (if keep then shapes else map (fun _ => []) shapes).
Proof. exact match_equal. Qed.
Print Assumptions C69_equal.
Theorem C69_common : forall shapes keep news, Forall (fun s => s <> []) shapes -> (~ exists S, Forall (fun s => prod s = S) shapes) ->
  match_shapes shapes keep = Ok news ->
  exists S, 0 < S /\ common_size shapes S /\ (forall S', common_size shapes S' -> S' <= S) /\
    Forall2 (fun s new => exists n, n <= last s 0 /\ resolved s new = removelast s ++ [n] /\ prod (resolved s new) = S /\ (new = [] <-> n = last s 0)) shapes news.
Proof. exact match_ok. Qed.
Print Assumptions C69_common.
Theorem C69_error : forall shapes keep, shapes <> [] -> Forall (fun s => s <> []) shapes -> (~ exists S, Forall (fun s => prod s = S) shapes) ->
  (match_shapes shapes keep = Err ValueError <-> forall S, common_size shapes S -> S = 0).
Proof. exact match_error. Qed.
Print Assumptions C69_error.
Theorem C69_nothing : forall keep, match_shapes [] keep = Err IndexError.
Proof. exact match_nothing. Qed.
Print Assumptions C69_nothing.
Example C69_case : match_shapes [[4; 5]; [6; 3]] true = Ok [[4; 3]; [6; 2]] /\ match_shapes [[7]; [2; 3]] false = Ok [[6]; []] /\
  match_shapes [[2]; [3; 4]] true = Err ValueError /\ common_size [[4; 5]; [6; 3]] 12 /\ ~ (exists S, Forall (fun s => prod s = S) [[4; 5]; [6; 3]]).
Proof.
  split; [reflexivity|]. split; [reflexivity|]. split; [reflexivity|]. split; [constructor; [exists 3; split; [repeat constructor|reflexivity]|constructor; [exists 2; split; [repeat constructor|reflexivity]|constructor]]|].
  intros (S & H). inversion H as [|? ? A B]; subst. inversion B as [|? ? C D]; subst. discriminate C.
Qed.
(* a shape that need not change is left out even when it should be kept *)
Theorem C69_keep_refuted : exists s1 s2 n1 n2, prod s1 <> 0 /\ match_shapes [s1; s2] true = Ok [n1; n2] /\ prod n1 <> prod n2.
Proof. exact match_keep_refuted. Qed.
Print Assumptions C69_keep_refuted.
Theorem C69_scalar_refuted : exists s news, match_shapes [[]; s] true = Ok news /\ exists new, nth_error news 0 = Some new /\ length new <> length (@nil nat).
Proof. exact match_scalar_refuted. Qed.
Print Assumptions C69_scalar_refuted.
(* ---- C70: tiles do not overlap ---- *)
Theorem C70_boxes : forall fortran t shapes d, shapes <> [] -> Forall (fun s => length s = d) shapes -> length t = d -> t <> [] -> length shapes <= prod t ->
  exists m boxes, tile_indices fortran t shapes = Ok (map2 Nat.mul m t, boxes) /\ length m = d /\ Forall (fun s => Forall2 le s m) shapes /\
    length boxes = length shapes /\
    (forall i b s, nth_error boxes i = Some b -> nth_error shapes i = Some s -> fit_box b (map2 Nat.mul m t) /\ extents b = s) /\
    (forall i j b b' idx, nth_error boxes i = Some b -> nth_error boxes j = Some b' -> in_range idx b -> in_range idx b' -> i = j).
Proof. exact tile_ok. Qed.
Print Assumptions C70_boxes.
Theorem C70_order : forall fortran t shapes d i b m boxes, shapes <> [] -> Forall (fun s => length s = d) shapes -> length t = d -> t <> [] -> length shapes <= prod t ->
  max_shape shapes = Ok m -> tile_indices fortran t shapes = Ok (map2 Nat.mul m t, boxes) -> nth_error boxes i = Some b ->
  exists ti, inside t ti /\ offsets b = map2 Nat.mul ti m /\ (if fortran then point t ti else rank t ti) = i.
Proof. exact tile_order. Qed.
Print Assumptions C70_order.
Theorem C70_error : forall fortran t shapes, shapes <> [] -> prod t < length shapes -> tile_indices fortran t shapes = Err ValueError.
Proof. exact tile_error. Qed.
Print Assumptions C70_error.
Theorem C70_tile : forall (A : Type) (fill : A) map_ tile_shape nscandim (sources : list (arr A)) D,
  sources <> [] -> Forall (fun d => length (shape d) <= nscandim) sources ->
  let sm := fun d : arr A => lookup map_ (shape d) in
  Forall (fun d => length (sm d) = D /\ usable_tile (shape d) (sm d)) sources -> 0 < D -> length tile_shape = D -> length sources <= prod tile_shape ->
  exists m out, max_shape (map (fun d => rev (line_shape (sm d) (prod (shape d)))) sources) = Ok m /\
    tile fill map_ tile_shape nscandim sources = Ok out /\ shape out = map2 Nat.mul m (rev tile_shape) /\
    (forall i d c ti, nth_error sources i = Some d -> inside (sm d) c -> point (sm d) c < full_lines (sm d) (prod (shape d)) ->
       inside (rev tile_shape) ti -> rank (rev tile_shape) ti = i ->
       at_ out (map2 Nat.add (map2 Nat.mul ti m) (rev c)) = at_ d (unrank (shape d) (point (sm d) c))) /\
    (forall idx, (forall i d c ti, nth_error sources i = Some d -> inside (sm d) c -> point (sm d) c < full_lines (sm d) (prod (shape d)) ->
       inside (rev tile_shape) ti -> rank (rev tile_shape) ti = i -> idx <> map2 Nat.add (map2 Nat.mul ti m) (rev c)) -> at_ out idx = fill).
Proof. exact tile_data. Qed.
Print Assumptions C70_tile.
Example C70_case : exists out, tile 0 [(KTuple [6], [3; 2]); (KTuple [4], [3; 2])] [2; 1] 1 [ar [6] 100; ar [4] 200] = Ok out /\
  usable_tile [6] [3; 2] /\ usable_tile [4] [3; 2] /\ full_lines [3; 2] 4 = 3 /\
  shape out = [2; 6] /\ map (fun j => at_ out [0; j]) (seq 0 6) = [100; 101; 102; 200; 201; 202] /\ map (fun j => at_ out [1; j]) (seq 0 6) = [103; 104; 105; 0; 0; 0].
Proof.
  eexists. split; [vm_compute; reflexivity|]. split; [split; [discriminate|]; split; [vm_compute; split; repeat constructor|left; reflexivity]|].
  split; [split; [discriminate|]; split; [vm_compute; split; repeat constructor|right; split; [split; [discriminate|reflexivity]|vm_compute; repeat constructor]]|].
  split; [reflexivity|]. split; [reflexivity|]. split; vm_compute; reflexivity.
Qed.
(* a detector and an interrupted scan *)
Theorem C70_detector_refuted : exists (A : arr nat) map_, shape A = [3; 2] /\ lookup map_ [3] = [2; 2] /\ usable_tile [3] [2; 2] /\
  tile 0 map_ [1; 1] 1 [A] = Err TypeError.
Proof. exact tile_detector_refuted. Qed.
Print Assumptions C70_detector_refuted.
(* more points than the scan *)
Theorem C70_more_refuted : exists (A : arr nat) map_ e, shape A = [5] /\ lookup map_ [5] = [2; 2] /\ tile 0 map_ [1; 1] 1 [A] = Err e.
Proof. exact tile_more_refuted. Qed.
Print Assumptions C70_more_refuted.
(* ---- C71: stacks ---- *)
Theorem C71_stack : forall (A : Type) text et (fill : A) map_ ns (sources : list (arr A)) dshape,
  max_shape (map shape sources) = Ok dshape -> dshape <> [] -> (ns = false \/ length sources <> 1) ->
  let sm := lookup map_ dshape in sm <> [] -> Forall (fun d => usable (shape d) sm) sources ->
  exists out, stack text et fill map_ (length dshape) ns sources = Ok (Virtual out) /\ shape out = length sources :: rev sm /\
    forall i d c, nth_error sources i = Some d -> inside sm c ->
      at_ out (i :: rev c) = if point sm c <? full_lines sm (prod (shape d)) then at_ d (unrank (shape d) (point sm c)) else fill.
Proof. exact stack_ok. Qed.
Print Assumptions C71_stack.
Theorem C71_detector : forall (A : Type) text et (fill : A) map_ nscandim ns (sources : list (arr A)) scan data,
  sources <> [] -> Forall (fun d => shape d = scan ++ data) sources -> nscandim = length scan -> scan <> [] -> (ns = false \/ length sources <> 1) ->
  let sm := lookup map_ scan in sm <> [] -> prod sm = prod scan ->
  exists out, stack text et fill map_ nscandim ns sources = Ok (Virtual out) /\ shape out = length sources :: rev sm ++ data /\
    forall i d c e, nth_error sources i = Some d -> inside sm c -> inside data e ->
      at_ out (i :: rev c ++ e) = at_ d (unrank scan (point sm c) ++ e).
Proof. exact stack_data. Qed.
Print Assumptions C71_detector.
Theorem C71_single : forall (A : Type) text et (fill : A) map_ (d : arr A), shape d <> [] ->
  let sm := lookup map_ (shape d) in sm <> [] -> usable (shape d) sm ->
  exists out, stack text et fill map_ (length (shape d)) true [d] = Ok (Virtual out) /\ shape out = rev sm /\
    forall c, inside sm c ->
      at_ out (rev c) = if point sm c <? full_lines sm (prod (shape d)) then at_ d (unrank (shape d) (point sm c)) else fill.
Proof. exact stack_single. Qed.
Print Assumptions C71_single.
Example C71_case : exists out, stack false false 0 [(KTuple [6], [3; 2])] 1 false [ar [6] 100; ar [4] 200] = Ok (Virtual out) /\
  usable [6] [3; 2] /\ usable [4] [3; 2] /\ shape out = [2; 2; 3] /\ at_ out [0; 1; 2] = 105 /\ at_ out [1; 0; 2] = 202 /\ at_ out [1; 1; 0] = 0.
Proof.
  eexists. split; [vm_compute; reflexivity|]. split; [left; reflexivity|]. split; [right; split; [split; [discriminate|reflexivity]|vm_compute; repeat constructor]|].
  split; [reflexivity|]. split; [vm_compute; reflexivity|]. split; vm_compute; reflexivity.
Qed.
Example C71_case_detector : exists out, stack false false 0 [(KTuple [6], [3; 2])] 1 false [ar [6; 2] 100; ar [6; 2] 200] = Ok (Virtual out) /\
  shape out = [2; 2; 3; 2] /\ point [3; 2] [2; 1] = 5 /\ at_ out [1; 1; 2; 1] = at_ (ar [6; 2] 200) [5; 1].
Proof. eexists. split; [vm_compute; reflexivity|]. split; [reflexivity|]. split; [reflexivity|]. vm_compute. reflexivity. Qed.
(* an interrupted scan with a detector: pixels of different points are mixed *)
Theorem C71_pixels_refuted : exists (A B : arr nat) map_ out, shape A = [4; 3] /\ shape B = [3; 3] /\ lookup map_ [4] = [2; 2] /\
  stack false false 0 map_ 1 false [A; B] = Ok (Virtual out) /\ shape out = [2; 2; 2; 3] /\
  inside [2; 2] [1; 0] /\ point [2; 2] [1; 0] = 1 /\ at_ out [1; 0; 1; 0] <> at_ B [1; 0] /\ at_ out [1; 0; 1; 0] <> 0.
Proof. exact stack_pixels_refuted. Qed.
Print Assumptions C71_pixels_refuted.
(* several rows *)
Theorem C71_rows_refuted : exists (A B : arr nat) out, shape A = [3; 4] /\ shape B = [2; 5] /\
  stack false false 0 [] 2 false [A; B] = Ok (Virtual out) /\ at_ B [0; 3] = 203 /\ at_ B [1; 0] = 205 /\
  at_ out [1; 1; 0] = 205 /\ (forall i j, i < 5 -> j < 3 -> at_ out [1; i; j] <> 203).
Proof. exact stack_rows_refuted. Qed.
Print Assumptions C71_rows_refuted.
(* one scan that stopped within its first line *)
Theorem C71_short_refuted : forall (A : Type) text et (fill : A) map_ ns n (sources : list (arr A)) d sm,
  max_shape (map shape sources) = Ok [n] -> (ns = false \/ length sources <> 1) -> lookup map_ [n] = sm -> sm <> [] ->
  In d sources -> prod (shape d) <> prod sm -> one_row (shape d) -> full_lines sm (prod (shape d)) = 0 -> 
  exists e, stack text et fill map_ 1 ns sources = Err e.
Proof. exact stack_short_refuted. Qed.
Print Assumptions C71_short_refuted.
Example C71_short_case : max_shape (map shape [ar [6] 100; ar [2] 200]) = Ok [6] /\ one_row [2] /\ full_lines [3; 2] (prod [2]) = 0 /\
  stack false false 0 [(KTuple [6], [3; 2])] 1 false [ar [6] 100; ar [2] 200] = Err ValueError.
Proof. split; [reflexivity|]. split; [split; [discriminate|reflexivity]|]. split; reflexivity. Qed.
(* the map of a mesh scan has numbers as keys, its users look up tuples *)
Theorem C71_mesh_refuted : forall (A : Type) text et (fill : A) fast slow nscandim ns (sources : list (arr A)),
  stack text et fill (mesh_map fast slow) nscandim ns sources = stack text et fill [] nscandim ns sources.
Proof. exact stack_mesh_refuted. Qed.
Print Assumptions C71_mesh_refuted.
