(* Model of src/spectrocrunch/utils/arraytricks.py: tiling of an array into memory seen through strides.
   A memory is a function of offsets, the destination a shape with strides (its first element at offset 0), the source a shape with its elements. *)
From Verif Require Export Base.
Local Open Scope list_scope.
Local Open Scope nat_scope.

Definition write {A} (m : Z -> A) (w : Z * A) : Z -> A := fun x => if (x =? fst w)%Z then snd w else m x.
Definition dim (shape : list nat) (k : nat) : result nat := match nth_error shape k with Some n => Ok n | None => Err IndexError end.
(* a != b or ...: the rest is not evaluated when they differ *)
Definition same (source dest : list nat) (k reps : nat) : result unit :=
  let! n := dim source k in let! N := dim dest k in if n * reps =? N then Ok tt else Err ValueError.
(* 16-37 dirs == 2: blocks (b, b) of a view with four dimensions *)
Definition diagonal {A} (n c reps : nat) (strides : Z * Z) (source : nat -> nat -> A) : list (Z * A) :=
  flat_map (fun b => flat_map (fun i => map (fun j =>
    ((Z.of_nat b * (Z.of_nat n * fst strides) + Z.of_nat b * (Z.of_nat c * snd strides) + Z.of_nat i * fst strides + Z.of_nat j * snd strides)%Z, source i j))
    (seq 0 c)) (seq 0 n)) (seq 0 reps).
(* 42-51: a view with three dimensions *)
Definition blocks {A} (n c reps : nat) (strides : Z * Z) (source : nat -> nat -> A) : list (Z * A) :=
  flat_map (fun r => flat_map (fun i => map (fun j =>
    ((Z.of_nat r * (Z.of_nat n * fst strides) + Z.of_nat i * fst strides + Z.of_nat j * snd strides)%Z, source i j))
    (seq 0 c)) (seq 0 n)) (seq 0 reps).
(* 8-51 tile *)
Definition tile {A} (sshape : list nat) (source : nat -> nat -> A) (dshape : list nat) (strides : Z * Z) (reps dirs : nat) (m : Z -> A) : result (Z -> A) :=
  if 2 <? List.length sshape then Err ValueError
  else if 2 <? List.length dshape then Err ValueError
  else if dirs =? 2 then
    let! _ := same sshape dshape 0 reps in
    let! _ := same sshape dshape 1 reps in
    let! n := dim sshape 0 in
    let! c := dim sshape 1 in
    Ok (fold_left write (diagonal n c reps strides source) m)
  else
    let '(ss, src, ds, st) := if dirs =? 0 then (sshape, source, dshape, strides)
                              else (rev sshape, (fun i j => source j i), rev dshape, (snd strides, fst strides)) in
    let! _ := same ss ds 0 reps in
    let! _ := same ss ds 1 1 in
    let! n := dim ss 0 in
    let! c := dim ds 1 in
    Ok (fold_left write (blocks n c reps st src) m).
