(* Property C89: setitem of utils/indexing.py *)
From Coq Require Import String.
From Verif Require Import NumpyModel IndexingModel IndexingSpec SetitemModel SetitemSpec SetitemMain.
Local Open Scope nat_scope.

(* [full] is the stack of the arrays of the places [args] along axis [ax], [full'] what numpy makes of it with full[i] = v (or +=, ...).
   After setitem the arrays of these places stacked are full', and the other places are as they were.
   Missing from the full property: np.newaxis in the index, values that must be broadcast (numbers are fine), lists of different lengths,
   a list of bool beside a list on the stacking axis, integers and lists that are neither next to each other nor at the front ([placed]),
   and a list that selects the same array twice for the methods other than "set". See the refutations below. *)
Theorem C89_setitem_partial : forall V (vadd vsub vmul vdiv vand vor : V -> V -> V) method g st args ax axis full i l r v full',
  does vadd vsub vmul vdiv vand vor method g ->
  NoDup args ->
  np_stack (map st args) ax = Ok full ->
  ax < length (shp full) -> (axis = Z.of_nat ax \/ axis = Z.of_nat ax - Z.of_nat (length (shp full)))%Z ->
  supported i (length (shp full)) ->
  np_expand (tuple_of i) (length (shp full)) = Ok l ->
  ~ In New l -> uniform l -> bool_lists_ok l ax -> placed l ax ->
  (forall a b c, g (g a b) c = g a c) \/ once l ax (length args) ->
  np_getitem full i = Ok r ->
  match v with Scalar _ => True | Array a => shp a = shp r end ->
  np_putitem g full i (as_array v) = Ok full' ->
  exists st' full2, setitem vadd vsub vmul vdiv vand vor st args i (length (shp full)) v method (Some (shp full)) axis = Ok st' /\
    (forall a, ~ In a args -> st' a = st a) /\
    np_stack (map st' args) ax = Ok full2 /\ arr_eq full2 full'.
Proof. exact setitem_is_assignment. Qed.
Print Assumptions C89_setitem_partial.

(* four 3x5 arrays stacked along the middle axis; += with the index [[2,0], ::2, [4,-1]] and a value *)
Definition ex_list_index : list ind := [Ints [2; 0]%Z; Sl {| start := None; stop := None; step := Some 2%Z |}; Ints [4; -1]%Z].
Example C89_hypotheses_hold : exists full r full',
  does Nat.add Nat.sub Nat.mul Nat.div Nat.land Nat.lor (txt "add") Nat.add /\
  NoDup [1; 2; 3; 4] /\ np_stack (map (ex_st [3; 5]) [1; 2; 3; 4]) 1 = Ok full /\ shp full = [3; 4; 5] /\
  supported (Tup ex_list_index) 3 /\ np_expand ex_list_index 3 = Ok ex_list_index /\ ~ In New ex_list_index /\ uniform ex_list_index /\
  bool_lists_ok ex_list_index 1 /\ placed ex_list_index 1 /\ once ex_list_index 1 4 /\
  np_getitem full (Tup ex_list_index) = Ok r /\ shp r = [2; 2] /\
  np_putitem Nat.add full (Tup ex_list_index) (as_array (ex_val [2; 2])) = Ok full' /\
  elt full' [2; 0; 4] = 124 + 500 /\ elt full' [0; 2; 4] = 304 + 511 /\ elt full' [0; 1; 4] = 204.
Proof.
  eexists _, _, _. split; [constructor|]. split; [repeat constructor; cbn; intuition congruence|]. split; [reflexivity|]. split; [reflexivity|].
  split. { cbn. intros [H|[H|[H|[]]]]; discriminate. }
  split; [reflexivity|]. split. { intros [H|[H|[H|[]]]]; discriminate. }
  split. { exists 2. cbn. intros i m [<-|[<-|[<-|[]]]] H; cbn in H; congruence. }
  split. { intros i k b H1 H2. cbn in H1. injection H1 as <-. now contradiction H2. }
  split. { right. right. right. split; [discriminate|]. exists (Ints [2; 0]%Z). auto. }
  split. { intros i r H Hr. cbn in H. injection H as <-. vm_compute in Hr. injection Hr as <-. repeat constructor; cbn; intuition congruence. }
  split; [reflexivity|]. split; [reflexivity|]. split; [reflexivity|]. vm_compute. auto.
Qed.
Example C89_computes :
  match setitem Nat.add Nat.sub Nat.mul Nat.div Nat.land Nat.lor (ex_st [3; 5]) [1; 2; 3; 4] (Tup ex_list_index) 3 (ex_val [2; 2]) (txt "add") (Some [3; 4; 5]) (-2)%Z with
  | Ok st' => elt (st' 1) [2; 4] = 124 + 500 /\ elt (st' 3) [0; 4] = 304 + 511 /\ elt (st' 2) [0; 4] = 204 /\ elt (st' 7) [2; 4] = 724
  | Err _ => False
  end.
Proof. vm_compute. auto. Qed.

(* Whatever the index, the value and the method: when setitem returns, only arrays of the list of arguments have changed, no shape has changed. *)
Theorem C89_other_arrays : forall V (vadd vsub vmul vdiv vand vor : V -> V -> V) st args i ndim v method shapefull axis st',
  setitem vadd vsub vmul vdiv vand vor st args i ndim v method shapefull axis = Ok st' ->
  (forall a, ~ In a args -> st' a = st a) /\ (forall a, shp (st' a) = shp (st a)).
Proof. exact @setitem_frame. Qed.
Print Assumptions C89_other_arrays.
(* With a method that does not exist nothing is ever changed: setitem raises, or no array is selected. *)
Theorem C89_unknown_method : forall V (vadd vsub vmul vdiv vand vor : V -> V -> V) st args i ndim v method shapefull axis st',
  (forall g, ~ does vadd vsub vmul vdiv vand vor method g) ->
  setitem vadd vsub vmul vdiv vand vor st args i ndim v method shapefull axis = Ok st' -> st' = st.
Proof. exact @setitem_unknown. Qed.
Print Assumptions C89_unknown_method.
Example C89_unknown_method_raises :
  set_by_code (ex_st [2]) [0; 1] 0 [full; full] (Scalar 7) (txt "multiply") = Err ValueError /\
  (forall g, ~ does Nat.add Nat.sub Nat.mul Nat.div Nat.land Nat.lor (txt "multiply") g) /\
  set_by_code (ex_st [2]) [0; 1] 0 [Ints []; full] (Scalar 7) (txt "multiply") = Ok [0; 1; 10; 11].
Proof. split; [vm_compute; reflexivity|]. split; [intros g H; inversion H|vm_compute; reflexivity]. Qed.

(* An integer for the stacking axis and a list further on: the values are written to the wrong elements. The dimension of the list comes first
   in the value; the operations that turn the result of indexing an array into the result of indexing the stack are also applied to the value,
   where the inverse is needed. *)
Theorem C89_order_refuted :
  assigned (fun _ x => x) (ex_st [2; 2; 2]) [0; 1] 0 [Num 0; full; full; Ints [0; 1]%Z] (ex_val [2; 2; 2])
    = Ok [500; 600; 501; 601; 510; 610; 511; 611; 1000; 1001; 1010; 1011; 1100; 1101; 1110; 1111] /\
  set_by_code (ex_st [2; 2; 2]) [0; 1] 0 [Num 0; full; full; Ints [0; 1]%Z] (ex_val [2; 2; 2]) (txt "set")
    = Ok [500; 510; 600; 610; 501; 511; 601; 611; 1000; 1001; 1010; 1011; 1100; 1101; 1110; 1111].
Proof. vm_compute. split; reflexivity. Qed.
Print Assumptions C89_order_refuted.
(* Two lists with a slice for the stacking axis between them: a legal assignment raises, also of a number. *)
Theorem C89_lists_apart_refuted :
  (exists l, assigned (fun _ x => x) (ex_st [2; 2; 2]) [0; 1] 2 [full; Ints [0; 1]%Z; full; Ints [0; 1]%Z] (ex_val [2; 2; 2]) = Ok l) /\
  set_by_code (ex_st [2; 2; 2]) [0; 1] 2 [full; Ints [0; 1]%Z; full; Ints [0; 1]%Z] (ex_val [2; 2; 2]) (txt "set") = Err ValueError /\
  (exists l, assigned (fun _ x => x) (ex_st [2; 2; 2]) [0; 1] 2 [full; Ints [0; 1]%Z; full; Ints [0; 1]%Z] (Scalar 7) = Ok l) /\
  set_by_code (ex_st [2; 2; 2]) [0; 1] 2 [full; Ints [0; 1]%Z; full; Ints [0; 1]%Z] (Scalar 7) (txt "set") = Err ValueError.
Proof. split; [eexists; vm_compute; reflexivity|]. split; [vm_compute; reflexivity|]. split; [eexists; vm_compute; reflexivity|vm_compute; reflexivity]. Qed.
Print Assumptions C89_lists_apart_refuted.
(* += with a list that selects an array twice: numpy adds the last value, setitem adds both. *)
Theorem C89_add_twice_refuted :
  assigned Nat.add (ex_st [2]) [0; 1] 0 [Ints [0; 0]%Z; full] (ex_val [2; 2]) = Ok [510; 512; 10; 11] /\
  set_by_code (ex_st [2]) [0; 1] 0 [Ints [0; 0]%Z; full] (ex_val [2; 2]) (txt "add") = Ok [1010; 1013; 10; 11].
Proof. vm_compute. split; reflexivity. Qed.
Print Assumptions C89_add_twice_refuted.
(* np.newaxis in the index *)
Theorem C89_newaxis_refuted :
  assigned (fun _ x => x) (ex_st [2]) [0; 1] 0 [New; full; full] (ex_val [1; 2; 2]) = Ok [500; 501; 510; 511] /\
  set_by_code (ex_st [2]) [0; 1] 0 [New; full; full] (ex_val [1; 2; 2]) (txt "set") = Err ValueError /\
  assigned (fun _ x => x) (ex_st [2]) [0; 1] 0 [New; full; full] (Scalar 7) = Ok [7; 7; 7; 7] /\
  set_by_code (ex_st [2]) [0; 1] 0 [New; full; full] (Scalar 7) (txt "set") = Err TypeError.
Proof. vm_compute. repeat split; reflexivity. Qed.
Print Assumptions C89_newaxis_refuted.
(* a row assigned to all rows of a stack of rows *)
Theorem C89_broadcast_refuted :
  assigned (fun _ x => x) (ex_st [2]) [0; 1] 0 [full; full] (ex_val [2]) = Ok [500; 501; 500; 501] /\
  set_by_code (ex_st [2]) [0; 1] 0 [full; full] (ex_val [2]) (txt "set") = Err IndexError.
Proof. vm_compute. split; reflexivity. Qed.
Print Assumptions C89_broadcast_refuted.
