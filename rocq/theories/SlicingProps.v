(* Property C18: math/slicing.py *)
From Verif Require Import NumpyModel SlicingModel SlicingSpec SlicingProofs.
From Coq Require Import QArith Sorting.Sorted.
Local Open Scope nat_scope.

(* Every element of the array is in exactly one of the yielded blocks. *)
Theorem C18_every_element_once : forall shape nbytes mb o, shape <> [] -> inside shape o ->
  exists j b, nth_error (slice_generator shape nbytes mb) j = Some b /\ in_block o b /\
    forall j' b', nth_error (slice_generator shape nbytes mb) j' = Some b' -> in_block o b' -> j' = j.
Proof. exact blocks_cover. Qed.
Print Assumptions C18_every_element_once.

(* The blocks come in lexicographic order of the numbers in the index. *)
Theorem C18_in_order : forall shape nbytes mb,
  StronglySorted (fun a b => lex (numbers a) (numbers b)) (slice_generator shape nbytes mb).
Proof. exact blocks_sorted. Qed.
Print Assumptions C18_in_order.

(* A block is not larger than requested, unless already the first dimension alone is;
   then every block is exactly that. *)
Theorem C18_block_size : forall shape nbytes mb b, shape <> [] -> In b (slice_generator shape nbytes mb) ->
  (megabytes (block_size shape b) nbytes <= mb)%Q \/
  (block_size shape b = hd 1%nat shape /\ ~ (megabytes (hd 1%nat shape) nbytes <= mb)%Q).
Proof. exact blocks_size. Qed.
Print Assumptions C18_block_size.

(* The blocks are not smaller than needed: with one more whole dimension they would
   be too large. *)
Theorem C18_blocks_maximal : forall shape nbytes mb k,
  find_slice_axis shape nbytes mb < k -> k < length shape ->
  ~ (megabytes (fold_right Nat.mul 1%nat (firstn (S k) shape)) nbytes <= mb)%Q.
Proof. exact axis_maximal. Qed.
Print Assumptions C18_blocks_maximal.

(* "At most the requested size" does not hold of every block. *)
Theorem C18_size_limit_refuted :
  exists shape b, In b (slice_generator shape 8 (1 # 1024)) /\
    ~ (megabytes (block_size shape b) 8 <= 1 # 1024)%Q.
Proof. exists [200; 2]. eexists. split; [right; left; reflexivity|]. vm_compute. intros H. now apply H. Qed.
Print Assumptions C18_size_limit_refuted.

Example C18_example :
  slice_generator [30; 4; 2; 2] 8 (1 # 1024) =
    [[Whole; Whole; At 0; At 0]; [Whole; Whole; At 0; At 1]; [Whole; Whole; At 1; At 0]; [Whole; Whole; At 1; At 1]].
Proof. reflexivity. Qed.
Example C18_inside_example : inside [30; 4; 2; 2] [9; 1; 0; 1].
Proof. repeat constructor. Qed.
