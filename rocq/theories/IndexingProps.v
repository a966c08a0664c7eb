(* Properties C15, C16, C17: utils/indexing.py *)
From Verif Require Import NumpyModel IndexingModel IndexingSpec OpsProofs GetitemProofs.
From Coq Require Import Permutation.
Local Open Scope nat_scope.

(* ---- C15 ---- *)
(* [st] is the full array: the arrays of the generator stacked along axis [ax].
   Indexing the generator gives the array that numpy gives for st[i], and the
   generator is called exactly for the selected positions, in order.
   Missing from the full property: indices for which [supported] is false (an
   Ellipsis for no dimension, a non-tuple for a one-dimensional stack), lists of
   different lengths (numpy broadcasts length 1) and a list of bool beside a
   list on the stacking axis; see the refutations below. *)
Theorem C15_getitem_partial :
  forall (Arg V : Type) (gen : Arg -> arr V) (dflt : V) args ax axis st i l r,
  ax < length (shp st) ->
  (axis = Z.of_nat ax \/ axis = Z.of_nat ax - Z.of_nat (length (shp st)))%Z ->
  np_stack (map gen args) ax = Ok st ->
  supported i (length (shp st)) ->
  np_expand (tuple_of i) (length (shp st)) = Ok l -> uniform l -> bool_lists_ok l ax ->
  np_getitem st i = Ok r ->
  exists ia r0 used r',
    getitem gen dflt args i (length (shp st)) (Some (shp st)) axis = Ok (used, r') /\
    arr_eq r' r /\
    nth_error (dims l) ax = Some ia /\ resolve (length args) ia = Ok r0 /\
    Forall2 (fun p a => nth_error args p = Some a) (positions r0) used.
Proof. exact @getitem_stack_axis. Qed.
Print Assumptions C15_getitem_partial.

(* four 3x5 arrays stacked along the middle axis, indexed with
   [[2,0], np.newaxis, 1::2, [4,4]] *)
Definition ex_gen (a : nat) : arr nat :=
  {| shp := [3; 5]; elt := fun o => 100 * a + 10 * nth 0 o 0 + nth 1 o 0 |}.
Definition ex_args : list nat := [1; 2; 3; 4].
Definition ex_index : index :=
  Tup [Ints [2; 0]%Z; New; Sl {| start := Some 1%Z; stop := None; step := Some 2%Z |}; Ints [4; -1]%Z].
Example C15_hypotheses_hold :
  exists st r l, np_stack (map ex_gen ex_args) 1 = Ok st /\ shp st = [3; 4; 5] /\
    1 < length (shp st) /\ supported ex_index (length (shp st)) /\
    np_expand (tuple_of ex_index) (length (shp st)) = Ok l /\ uniform l /\ bool_lists_ok l 1 /\
    np_getitem st ex_index = Ok r /\ shp r = [2; 1; 2] /\
    elt r [0; 0; 0] = 224 /\ elt r [1; 0; 1] = 404.
Proof.
  eexists _, _, _. split; [reflexivity|]. split; [reflexivity|]. split; [cbn; lia|].
  split. { cbn. intros [H|[H|[H|[H|[]]]]]; discriminate. }
  split; [reflexivity|].
  split. { exists 2. cbn. intros i m [<-|[<-|[<-|[<-|[]]]]] H; cbn in H; congruence. }
  split. { intros i k b H1 H2. cbn in H1. injection H1 as <-. now contradiction H2. }
  split; [reflexivity|]. repeat split; reflexivity.
Qed.
Example C15_computes :
  match getitem ex_gen 0 ex_args ex_index 3 (Some [3; 4; 5]) (-2)%Z with
  | Ok (used, r) => used = [2; 4] /\ shp r = [2; 1; 2] /\ elt r [0; 0; 0] = 224 /\ elt r [1; 0; 1] = 404
  | Err _ => False
  end.
Proof. vm_compute. repeat split; reflexivity. Qed.

(* An Ellipsis that stands for no dimension is a legal index, getitem raises. *)
Theorem C15_empty_ellipsis_refuted :
  exists st r, np_stack (map ex_gen ex_args) 0 = Ok st /\
    np_getitem st (Tup [Ell; Num 0; Num 0; Num 0]) = Ok r /\
    getitem ex_gen 0 ex_args (Tup [Ell; Num 0; Num 0; Num 0]) 3 (Some (shp st)) 0 = Err IndexError.
Proof. eexists _, _. split; [reflexivity|]. split; reflexivity. Qed.
Print Assumptions C15_empty_ellipsis_refuted.

(* A stack of numbers (one dimension) cannot be indexed with a number. *)
Theorem C15_single_dimension_refuted :
  let gen := fun a : nat => {| shp := []; elt := fun _ => a |} in
  exists st r, np_stack (map gen ex_args) 0 = Ok st /\
    np_getitem st (One (Num 1)) = Ok r /\ elt r [] = 2 /\
    getitem gen 0 ex_args (One (Num 1)) 1 (Some (shp st)) 0 = Err TypeError.
Proof. eexists _, _. split; [reflexivity|]. repeat split; reflexivity. Qed.
Print Assumptions C15_single_dimension_refuted.

(* Lists of length 1 are not broadcast. *)
Theorem C15_broadcast_refuted :
  exists st r, np_stack (map ex_gen ex_args) 0 = Ok st /\
    np_getitem st (Tup [Ints [0; 1]%Z; Ints [2]%Z]) = Ok r /\
    getitem ex_gen 0 ex_args (Tup [Ints [0; 1]%Z; Ints [2]%Z]) 3 (Some (shp st)) 0 = Err IndexError.
Proof. eexists _, _. split; [reflexivity|]. split; reflexivity. Qed.
Print Assumptions C15_broadcast_refuted.

(* Without the shape of the full array an empty selection has the wrong shape. *)
Theorem C15_no_shape_refuted :
  let i := Tup [Sl {| start := Some 0%Z; stop := Some 0%Z; step := None |}] in
  exists st r used r', np_stack (map ex_gen ex_args) 0 = Ok st /\
    np_getitem st i = Ok r /\ shp r = [0; 3; 5] /\
    getitem ex_gen 0 ex_args i 3 None 0 = Ok (used, r') /\ shp r' = [0; 1; 1].
Proof. eexists _, _, _, _. split; [reflexivity|]. repeat split; reflexivity. Qed.
Print Assumptions C15_no_shape_refuted.

(* ---- C16 ---- *)
(* A tuple with at most one Ellipsis: the given entries stay in place and in order,
   full slices replace the Ellipsis (or are added at the end), and there is one
   entry per dimension beside the new axes. *)
Theorem C16_expand_in_place : forall l ndim l',
  expand (Tup l) ndim = Ok l' -> count is_ell l <= 1 ->
  exists pre post k,
    (l = pre ++ Ell :: post /\ ~ In Ell pre /\ ~ In Ell post \/ l = pre /\ post = [] /\ ~ In Ell l) /\
    l' = Tup (pre ++ repeat (Sl slice_all) k ++ post) /\
    length (dims pre) + k + length (dims post) = ndim.
Proof. exact expand_tuple. Qed.
Print Assumptions C16_expand_in_place.
Example C16_in_place_example :
  expand (Tup [New; Num 3; Ell; Ints [0; 2]%Z]) 5 =
    Ok (Tup [New; Num 3; Sl slice_all; Sl slice_all; Sl slice_all; Ints [0; 2]%Z]) /\
  count is_ell [New; Num 3; Ell; Ints [0; 2]%Z] <= 1.
Proof. split; [reflexivity|cbn; lia]. Qed.

Theorem C16_expand_again : forall l ndim l',
  expand (Tup l) ndim = Ok (Tup l') -> count is_ell l <= 1 ->
  length (dims l') = ndim /\ ~ In Ell l' /\ expand (Tup l') ndim = Ok (Tup l').
Proof. exact expand_again. Qed.
Print Assumptions C16_expand_again.
Example C16_again_example :
  expand (Tup [Ell; Num 3; New]) 3 = Ok (Tup [Sl slice_all; Sl slice_all; Num 3; New]).
Proof. reflexivity. Qed.

Theorem C16_too_many_indices_raise : forall l ndim, ndim < given l -> expand (Tup l) ndim = Err IndexError.
Proof. exact expand_too_many. Qed.
Print Assumptions C16_too_many_indices_raise.
Example C16_too_many_example : 2 < given [Num 1; New; Ell; Num 1; Num 1].
Proof. cbn; lia. Qed.

(* The expanded index selects what numpy selects with the given index. *)
Theorem C16_expand_same_selection_partial : forall i ndim l,
  1 <= ndim -> supported i ndim -> np_expand (tuple_of i) ndim = Ok l -> expand i ndim = Ok (Tup l).
Proof. exact expand_np. Qed.
Print Assumptions C16_expand_same_selection_partial.
Example C16_selection_example :
  supported (Tup [Ell; Num 1]) 3 /\ np_expand [Ell; Num 1] 3 = Ok [Sl slice_all; Sl slice_all; Num 1].
Proof. split; [cbn; lia|reflexivity]. Qed.

(* A legal index that raises, and an illegal one that does not and keeps an Ellipsis. *)
Theorem C16_empty_ellipsis_refuted :
  np_expand [Num 0; Ell; Num 1] 2 = Ok [Num 0; Num 1] /\
  expand (Tup [Num 0; Ell; Num 1]) 2 = Err IndexError.
Proof. split; reflexivity. Qed.
Print Assumptions C16_empty_ellipsis_refuted.
Theorem C16_two_ellipses_refuted :
  np_expand [Ell; Num 0; Ell] 4 = Err IndexError /\
  exists l, expand (Tup [Ell; Num 0; Ell]) 4 = Ok (Tup l) /\ In Ell l.
Proof. split; [reflexivity|]. eexists. split; [reflexivity|]. cbn. auto 10. Qed.
Print Assumptions C16_two_ellipses_refuted.

(* An entry that the code takes as not changing the dimension selects all of it,
   in order. *)
Theorem C16_nonchanging_selects_all : forall i n r,
  i <> Ell -> nonchanging1 i (Some n) = true -> resolve n i = Ok r -> positions r = seq 0 n.
Proof. exact nonchanging_sel. Qed.
Print Assumptions C16_nonchanging_selects_all.
Example C16_nonchanging_example :
  nonchanging1 (Ints [0; 1; 2]%Z) (Some 3) = true /\ resolve 3 (Ints [0; 1; 2]%Z) = Ok (RAdv [0; 1; 2]).
Proof. split; reflexivity. Qed.

(* ---- C17 ---- *)
(* Recording operations one by one (consecutive transpositions are merged) and
   applying the record equals applying the operations one by one. *)
Theorem C17_recorded_operations : forall (V : Type) l ops (a b c : arr V),
  apply_ops ops a = Ok b -> apply_ops l b = Ok c ->
  exists ops' d, record ops l = Ok ops' /\ apply_ops ops' a = Ok d /\ arr_eq d c.
Proof. exact @record_ok. Qed.
Print Assumptions C17_recorded_operations.
Example C17_recorded_example :
  exists c, apply_ops [OpIndex [full; New; full]; OpTranspose [1; 2; 0]; OpTranspose [2; 0; 1]; OpTranspose [0; 2; 1]] (ex_gen 1) = Ok c /\
    shp c = [3; 5; 1] /\
    record [] [OpIndex [full; New; full]; OpTranspose [1; 2; 0]; OpTranspose [2; 0; 1]; OpTranspose [0; 2; 1]]
      = Ok [OpIndex [full; New; full]; OpTranspose [0; 2; 1]].
Proof. eexists. split; [reflexivity|]. split; reflexivity. Qed.

(* Two transpositions equal the transposition by the composed permutation. *)
Theorem C17_transpositions_compose : forall n a1 a2,
  Permutation a1 (seq 0 n) -> Permutation a2 (seq 0 n) -> forall (V : Type) (a : arr V),
  arr_eq (np_transpose (np_transpose a a1) a2) (np_transpose a (map (fun k => nth k a1 0) a2)).
Proof. exact @transpose_comp. Qed.
Print Assumptions C17_transpositions_compose.
Example C17_compose_example : Permutation [2; 0; 1] (seq 0 3).
Proof. apply is_axes_spec. reflexivity. Qed.

(* move_axis puts axis q at position p and keeps the order of the others ... *)
Theorem C17_move_axis : forall n q p axes, q < n -> p < n -> move_axis n q p = Some axes ->
  nth p axes 0 = q /\ remove_at p axes = remove_at q (seq 0 n).
Proof. exact move_axis_order. Qed.
Print Assumptions C17_move_axis.
(* ... and moving it back restores the array. *)
Theorem C17_move_back : forall (V : Type) (a : arr V) q p axes axes',
  q < length (shp a) -> p < length (shp a) ->
  move_axis (length (shp a)) q p = Some axes -> move_axis (length (shp a)) p q = Some axes' ->
  exists b, apply_ops [OpTranspose axes; OpTranspose axes'] a = Ok b /\ arr_eq b a.
Proof. exact @move_back. Qed.
Print Assumptions C17_move_back.
Example C17_move_example :
  move_axis 4 1 3 = Some [0; 2; 3; 1] /\ move_axis 4 3 1 = Some [0; 3; 1; 2] /\ move_axis 4 2 2 = None.
Proof. repeat split; reflexivity. Qed.
