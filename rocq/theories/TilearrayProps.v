(* Properties of tiled arrays *)
From Verif Require Import TilearrayModel TilearraySpec TilearrayProofs.
Local Open Scope list_scope.
Local Open Scope nat_scope.

(* copies below each other; nothing else in memory changes, for all strides *)
Theorem C120_rows A n c reps s0 s1 (source : nat -> nat -> A) m : distinct_places (n * reps) c s0 s1 ->
  exists m', tile [n; c] source [n * reps; c] (s0, s1) reps 0 m = Ok m' /\
  (forall i j, i < n * reps -> j < c -> m' (place s0 s1 i j) = source (i mod n) j) /\
  (forall x, (forall i j, i < n * reps -> j < c -> x <> place s0 s1 i j) -> m' x = m x).
Proof. exact (rows n c reps s0 s1 source m). Qed.
Print Assumptions C120_rows.
(* copies beside each other *)
Theorem C120_columns A n c reps s0 s1 (source : nat -> nat -> A) m : distinct_places n (c * reps) s0 s1 ->
  exists m', tile [n; c] source [n; c * reps] (s0, s1) reps 1 m = Ok m' /\
  (forall i j, i < n -> j < c * reps -> m' (place s0 s1 i j) = source i (j mod c)) /\
  (forall x, (forall i j, i < n -> j < c * reps -> x <> place s0 s1 i j) -> m' x = m x).
Proof. exact (columns n c reps s0 s1 source m). Qed.
Print Assumptions C120_columns.
(* copies on the diagonal; other elements keep their values *)
Theorem C120_diagonal A n c reps s0 s1 (source : nat -> nat -> A) m : distinct_places (n * reps) (c * reps) s0 s1 ->
  exists m', tile [n; c] source [n * reps; c * reps] (s0, s1) reps 2 m = Ok m' /\
  (forall i j, i < n * reps -> j < c * reps -> m' (place s0 s1 i j) = if i / n =? j / c then source (i mod n) (j mod c) else m (place s0 s1 i j)) /\
  (forall x, (forall i j, i < n * reps -> j < c * reps -> x <> place s0 s1 i j) -> m' x = m x).
Proof. exact (diagonals n c reps s0 s1 source m). Qed.
Print Assumptions C120_diagonal.
(* a contiguous array has distinct places *)
Theorem C120_contiguous n c : distinct_places n c (Z.of_nat c) 1.
Proof. exact (contiguous n c). Qed.
Print Assumptions C120_contiguous.
Example C120_tile_case : match tile [2; 2] (fun i j => i * 10 + j) [4; 4] (4, 1)%Z 2 2 (fun _ => 99) with
  | Ok m => map (fun i => m (Z.of_nat i)) (seq 0 17) = [0; 1; 99; 99; 10; 11; 99; 99; 99; 99; 0; 1; 99; 99; 10; 11; 99] | Err _ => False end.
Proof. reflexivity. Qed.
Example C120_columns_case : match tile [2; 1] (fun i j => i * 10 + j) [2; 3] (3, 1)%Z 3 1 (fun _ => 99) with
  | Ok m => map (fun i => m (Z.of_nat i)) (seq 0 7) = [0; 0; 0; 10; 10; 10; 99] | Err _ => False end.
Proof. reflexivity. Qed.

(* arrays with more dimensions and shapes that do not fit are errors *)
Theorem C120_wrong_rank A sshape (source : nat -> nat -> A) dshape strides reps dirs m : 2 < List.length sshape \/ 2 < List.length dshape -> tile sshape source dshape strides reps dirs m = Err ValueError.
Proof. exact (wrong_rank sshape source dshape strides reps dirs m). Qed.
Print Assumptions C120_wrong_rank.
Theorem C120_wrong_shape A n c (source : nat -> nat -> A) N C strides reps m :
  (N <> n * reps \/ C <> c -> tile [n; c] source [N; C] strides reps 0 m = Err ValueError) /\
  (N <> n \/ C <> c * reps -> tile [n; c] source [N; C] strides reps 1 m = Err ValueError) /\
  (N <> n * reps \/ C <> c * reps -> tile [n; c] source [N; C] strides reps 2 m = Err ValueError).
Proof. exact (wrong_shape n c source N C strides reps m). Qed.
Print Assumptions C120_wrong_shape.
Example C120_wrong_case : tile [2; 2; 2] (fun i j => i) [4; 2] (2, 1)%Z 2 0 (fun _ => 0) = Err ValueError /\ tile [2; 2] (fun i j => i) [5; 2] (2, 1)%Z 2 0 (fun _ => 0) = Err ValueError.
Proof. split; reflexivity. Qed.
(* an array with one dimension is allowed but always an error *)
Theorem C120_one_dimension_refuted A n (source : nat -> nat -> A) dshape strides reps dirs m : exists e, tile [n] source dshape strides reps dirs m = Err e.
Proof. exact (one_dimension n source dshape strides reps dirs m). Qed.
Print Assumptions C120_one_dimension_refuted.
Example C120_one_dimension_case : tile [2] (fun i j => i) [4] (1, 1)%Z 2 0 (fun _ => 0) = Err IndexError.
Proof. reflexivity. Qed.
