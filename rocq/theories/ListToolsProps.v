(* C07-C10: properties of the list tools. *)
From Verif Require Import Base BaseProofs QcTac ListToolsModel ListToolsSpec ListToolsProofs.

(* C07 *)
Theorem sort2lists_sorts_pairs_stably :
  forall (A B : Type) (le : A -> A -> bool) (l1 : list A) (l2 : list B) o1 o2,
    (forall x y, le x y = true \/ le y x = true) ->
    (forall x y z, le x y = true -> le y z = true -> le x z = true) ->
    sort2lists le l1 l2 = Some (o1, o2) ->
    length o1 = length o2 /\
    Permutation (combine o1 o2) (combine l1 l2) /\
    StronglySorted (fun x y => le x y = true) o1 /\
    (forall k, filter (fun p => le k (fst p) && le (fst p) k) (combine o1 o2) =
               filter (fun p => le k (fst p) && le (fst p) k) (combine l1 l2)).
Proof. exact @sort2lists_spec. Qed.
Print Assumptions sort2lists_sorts_pairs_stably.
Example sort2lists_ex :
  sort2lists Z.leb [3; 1; 3; 2] [10; 20; 30; 40] = Some ([1; 2; 3; 3], [20; 40; 10; 30]).
Proof. reflexivity. Qed.

Theorem sort2lists_empty_only :
  forall (A B : Type) (le : A -> A -> bool) (l1 : list A) (l2 : list B),
    sort2lists le l1 l2 = None <-> combine l1 l2 = [].
Proof. exact @sort2lists_None. Qed.
Print Assumptions sort2lists_empty_only.

Theorem unique2lists_add_sums :
  forall (A B : Type) (eqb : A -> A -> bool), decides_eq eqb ->
  forall (plus : B -> B -> B) (zero : B) l1 l2 o1 o2,
    unique2lists_add eqb plus zero l1 l2 = (o1, o2) ->
    distinct_in_order eqb o1 (map fst (combine l1 l2)) /\
    o2 = map (fun x => fold_left plus (values_of eqb x (combine l1 l2)) zero) o1.
Proof. exact @unique2lists_add_spec. Qed.
Print Assumptions unique2lists_add_sums.
Example unique2lists_add_ex :
  unique2lists_add Z.eqb Z.add 0 [3; 1; 3; 2; 1] [10; 20; 30; 40; 50] = ([3; 1; 2], [40; 70; 40]).
Proof. reflexivity. Qed.

Theorem unique2lists_first_wins :
  forall (A B : Type) (eqb : A -> A -> bool), decides_eq eqb ->
  forall l1 (l2 : list B) o1 o2,
    unique2lists_first eqb l1 l2 = Ok (o1, o2) ->
    distinct_in_order eqb o1 (map fst (combine l1 l2)) /\
    Forall2 (fun x y => lookup eqb x (combine l1 l2) = Some y) o1 o2.
Proof. exact @unique2lists_first_spec. Qed.
Print Assumptions unique2lists_first_wins.
Example unique2lists_first_ex :
  unique2lists_first Z.eqb [3; 1; 3; 2; 1] [10; 20; 30; 40; 50] = Ok ([3; 1; 2], [10; 20; 40]).
Proof. reflexivity. Qed.

(* The only input on which the non-adding variant raises is the empty one. *)
Theorem unique2lists_first_raises_only_when_empty :
  forall (A B : Type) (eqb : A -> A -> bool) (l1 : list A) (l2 : list B),
    (exists e, unique2lists_first eqb l1 l2 = Err e) <-> combine l1 l2 = [].
Proof. exact @unique2lists_first_err. Qed.
Print Assumptions unique2lists_first_raises_only_when_empty.

Theorem sumrepeats_sums :
  forall (A B : Type) (eqb : A -> A -> bool), decides_eq eqb ->
  forall (plus : B -> B -> B) (zero : B) l1 l2 o1 o2,
    sumrepeats eqb plus zero l1 l2 = (o1, o2) ->
    distinct_in_order eqb o1 (map fst (combine l1 l2)) /\
    o2 = map (fun x => fold_left plus (values_of eqb x (combine l1 l2)) zero) o1.
Proof. exact @sumrepeats_spec. Qed.
Print Assumptions sumrepeats_sums.

Theorem sumrepeats_preserves_total :
  forall (A : Type) (eqb : A -> A -> bool), decides_eq eqb ->
  forall l1 (l2 : list Qc) o1 o2,
    sumrepeats eqb Qcplus 0%Qc l1 l2 = (o1, o2) \/ unique2lists_add eqb Qcplus 0%Qc l1 l2 = (o1, o2) ->
    length l1 = length l2 ->
    fold_left Qcplus o2 0%Qc = fold_left Qcplus l2 0%Qc.
Proof. exact @unique_total. Qed.
Print Assumptions sumrepeats_preserves_total.
Example sumrepeats_ex :
  sumrepeats Z.eqb Z.add 0 [3; 1; 3] [10; 20; 30] = ([3; 1], [40; 20]).
Proof. reflexivity. Qed.

(* C08 *)
Theorem move_permutes :
  forall (A : Type) (l : list A) i j l', move l i j = Ok l' -> Permutation l' l.
Proof. exact @move_perm. Qed.
Print Assumptions move_permutes.

Theorem move_puts_element_there_partial :
  forall (A : Type) (l : list A) (i j : nat),
    (i < length l)%nat -> (j < length l)%nat ->
    exists l', move l (Z.of_nat i) (Z.of_nat j) = Ok l' /\
      length l' = length l /\
      nth_error l' j = nth_error l i /\
      firstn j l' ++ skipn (S j) l' = firstn i l ++ skipn (S i) l.
Proof. exact @move_spec. Qed.
Print Assumptions move_puts_element_there_partial.
Example move_ex : move [1; 2; 3; 4] 0 2 = Ok [2; 3; 1; 4].
Proof. reflexivity. Qed.

(* Counting the target from the back does not put the element there. *)
Theorem move_to_last_refuted :
  exists (l l' : list Z), move l 0 (-1) = Ok l' /\ py_get l' (-1) <> py_get l 0.
Proof. exact move_negative_refuted. Qed.
Print Assumptions move_to_last_refuted.

Theorem swap_exchanges_two :
  forall (A : Type) (l : list A) (i j : Z) (a b : nat),
    py_pos (length l) i = Some a -> py_pos (length l) j = Some b ->
    exists l', swap l i j = Ok l' /\ length l' = length l /\
      nth_error l' a = nth_error l b /\ nth_error l' b = nth_error l a /\
      (forall k, k <> a -> k <> b -> nth_error l' k = nth_error l k).
Proof. exact @swap_spec. Qed.
Print Assumptions swap_exchanges_two.
Example swap_ex : swap [1; 2; 3; 4] 0 (-1) = Ok [4; 2; 3; 1].
Proof. reflexivity. Qed.

Theorem swap_permutes :
  forall (A : Type) (l l' : list A) i j, swap l i j = Ok l' -> Permutation l' l.
Proof. exact @swap_perm. Qed.
Print Assumptions swap_permutes.

Theorem swap_twice_restores :
  forall (A : Type) (l l' : list A) i j, swap l i j = Ok l' -> swap l' i j = Ok l.
Proof. exact @swap_involutive. Qed.
Print Assumptions swap_twice_restores.

Theorem roll_permutes : forall (A : Type) (l : list A) n, Permutation (roll l n) l.
Proof. exact @roll_perm. Qed.
Print Assumptions roll_permutes.

Theorem roll_positions_partial :
  forall (A : Type) (l : list A) n (i : nat),
    0 <= n -> (i < length l)%nat ->
    nth_error (roll l n) i = nth_error l ((i + Z.to_nat n) mod length l).
Proof. exact @roll_spec. Qed.
Print Assumptions roll_positions_partial.
Example roll_ex : roll [1; 2; 3; 4; 5] 7 = [3; 4; 5; 1; 2].
Proof. reflexivity. Qed.

(* Rolling by a negative distance rolls in the same direction as by the positive one. *)
Theorem roll_negative_refuted :
  (forall (A : Type) (l : list A) n, roll l (- n) = roll l n) /\
  exists (l : list Z) n i, 0 <= i < Z.of_nat (length l) /\
    py_get (roll l n) i <> py_get l ((i + n) mod Z.of_nat (length l)).
Proof. exact roll_negative. Qed.
Print Assumptions roll_negative_refuted.

(* C09 *)
Theorem bool_indexing_selects_true_positions_partial :
  forall (A : Type) (l : list A) (b : list bool) (bnot : bool),
    length b = length l ->
    exists ps, StronglySorted lt ps /\
      (forall i, In i ps <-> nth_error b i = Some (negb bnot)) /\
      Forall2 (fun i x => nth_error l i = Some x) ps (listadvanced_bool l b bnot).
Proof. exact @listadvanced_bool_positions. Qed.
Print Assumptions bool_indexing_selects_true_positions_partial.
Example bool_indexing_ex : listadvanced_bool [1; 2; 3] [true; false; true] true = [2].
Proof. reflexivity. Qed.

(* Array indexing rejects a boolean index of another length; listadvanced accepts
   it and silently returns a truncated selection. *)
Theorem bool_indexing_wrong_length_refuted :
  exists (l : list Z) b out, length b <> length l /\ listadvanced l (BoolIdx b) = Ok out.
Proof. exact listadvanced_bool_length. Qed.
Print Assumptions bool_indexing_wrong_length_refuted.

Theorem int_indexing_is_pointwise :
  forall (A : Type) (l : list A) ind out,
    listadvanced l (IntIdx ind) = Ok out <->
    Forall2 (fun i x => (0 <= i /\ nth_error l (Z.to_nat i) = Some x) \/
      (i < 0 /\ - Z.of_nat (length l) <= i /\
       nth_error l (Z.to_nat (i + Z.of_nat (length l))) = Some x)) ind out.
Proof. exact @listadvanced_int_spec. Qed.
Print Assumptions int_indexing_is_pointwise.
Example int_indexing_ex : listadvanced [10; 20; 30] (IntIdx [2; -1; 0; -3]) = Ok [30; 30; 10; 10].
Proof. reflexivity. Qed.

Theorem int_indexing_raises_out_of_range :
  forall (A : Type) (l : list A) ind,
    (exists e, listadvanced l (IntIdx ind) = Err e) <->
    exists i, In i ind /\ (i < - Z.of_nat (length l) \/ Z.of_nat (length l) <= i).
Proof. exact @listadvanced_int_err. Qed.
Print Assumptions int_indexing_raises_out_of_range.

Theorem where_lists_matching_positions :
  forall (A : Type) (l : list A) (f : A -> bool),
    StronglySorted lt (where_idx l f) /\
    (forall i, In i (where_idx l f) <-> exists x, nth_error l i = Some x /\ f x = true).
Proof. exact @where_spec. Qed.
Print Assumptions where_lists_matching_positions.
Example where_ex : where_idx [5; -1; 7] (Z.ltb 0) = [0%nat; 2%nat].
Proof. reflexivity. Qed.

(* C10 *)
Theorem flatten_lists_leaves_in_order :
  forall (A : Type) (t : tree A),
    exists ps : list (list nat * A),
      StronglySorted (fun x y => path_lt (fst x) (fst y)) ps /\
      (forall p a, In (p, a) ps <-> leaf_at t p = Some a) /\
      flatten t = map snd ps.
Proof. exact @flatten_in_order. Qed.
Print Assumptions flatten_lists_leaves_in_order.
Example flatten_ex :
  flatten (Node [Leaf 1; Node [Leaf 2; Node []; Node [Leaf 3]]; Leaf 4]) = [1; 2; 3; 4].
Proof. reflexivity. Qed.

Theorem flatten_of_flat_list :
  forall (A : Type) (l : list A), flatten (Node (map Leaf l)) = l.
Proof. exact @flatten_flat. Qed.
Print Assumptions flatten_of_flat_list.

Theorem unique_everseen_keeps_first_occurrences :
  forall (A K : Type) (eqb : K -> K -> bool) (key : A -> K) (l : list A),
    decides_eq eqb ->
    distinct_in_order eqb (map key (unique_everseen eqb key l)) (map key l) /\
    (forall x, In x (unique_everseen eqb key l) ->
       find (fun y => eqb (key x) (key y)) l = Some x).
Proof. exact @unique_everseen_first. Qed.
Print Assumptions unique_everseen_keeps_first_occurrences.
Example unique_everseen_ex :
  unique_everseen Z.eqb (fun x => x mod 3) [1; 4; 2; 6; 5] = [1; 2; 6].
Proof. reflexivity. Qed.
