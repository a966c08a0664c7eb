(* Model of src/spectrocrunch/math/slicing.py.  Lengths are unbounded (no overflow
   of cumprod) and the number of megabytes is exact. *)
From Verif Require Export Base NumpyModel.
From Coq Require Import QArith.
Local Open Scope nat_scope.

(* numpy.cumprod *)
Fixpoint cumprod_from (p : nat) (shape : list nat) : list nat :=
  match shape with
  | [] => []
  | n :: shape' => (p * n) :: cumprod_from (p * n) shape'
  end.
Definition cumprod (shape : list nat) : list nat := cumprod_from 1 shape.

(* numpy.where(flags)[0] *)
Fixpoint where_true (k : nat) (l : list bool) : list nat :=
  match l with
  | [] => []
  | true :: l' => k :: where_true (S k) l'
  | false :: l' => where_true (S k) l'
  end.

(* math/slicing.py:9-15 find_slice_axis; nbytes = calc_nbytes(dtype) (lines 5-6) *)
Definition megabytes (n nbytes : nat) : Q := (inject_Z (Z.of_nat (n * nbytes)) / inject_Z (1024 * 1024))%Q.
Definition find_slice_axis (shape : list nat) (nbytes : nat) (mb_threshold : Q) : nat :=
  let mb := map (fun n => megabytes n nbytes) (cumprod shape) in
  match rev (where_true 0 (map (fun m => Qle_bool m mb_threshold) mb)) with
  | a :: _ => a
  | [] => 0
  end.

(* entries of the yielded index: slice(None) or a number *)
Inductive choice : Type := Whole | At (k : nat).

(* itertools.product: the last choice varies fastest *)
Fixpoint product {A} (ls : list (list A)) : list (list A) :=
  match ls with
  | [] => [[]]
  | l :: ls' => flat_map (fun x => map (cons x) (product ls')) l
  end.

(* math/slicing.py:18-24 slice_generator: everything it yields, in order *)
Definition slice_generator (shape : list nat) (nbytes : nat) (mb_threshold : Q) : list (list choice) :=
  let axis := find_slice_axis shape nbytes mb_threshold in
  product (repeat [Whole] (S axis) ++ map (fun n => map At (seq 0 n)) (skipn (S axis) shape)).
