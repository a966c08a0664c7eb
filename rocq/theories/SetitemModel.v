(* Model of src/spectrocrunch/utils/indexing.py 961-1045: setitem. The arrays are numpy arrays kept in numbered places
   (selector(arg) is a view of the array of place arg). When an error is raised in the loop the earlier assignments have
   been done; the model only tells that there is an error. *)
From Coq Require Import String.
From Verif Require Export IndexingModel Text.
Local Open Scope nat_scope.

(* ---- numpy: assignment. This part models a library. ---- *)
(* all coordinates of an array in the order of numpy (the last one varies first) *)
Fixpoint coords (s : list nat) : list (list nat) :=
  match s with [] => [[]] | n :: s' => flat_map (fun k => map (cons k) (coords s')) (seq 0 n) end.
(* the element of the indexed array that becomes element o *)
Definition source (rs : list rent) (o : list nat) : list nat := out_elt (fun c => c) rs o.
(* np.broadcast_to(v, so). (In an assignment numpy also accepts a value with more dimensions when the first ones have length 1.) *)
Definition fits (n m : nat) : bool := Nat.eqb n m || Nat.eqb n 1.
Definition np_broadcast {V} (v : arr V) (so : list nat) : result (arr V) :=
  let k := length so - length (shp v) in
  if (length so <? length (shp v)) || negb (forallb (fun p => fits (fst p) (snd p)) (combine (shp v) (skipn k so))) then Err ValueError
  else Ok {| shp := so; elt := fun o => elt v (map (fun p => if Nat.eqb (fst p) 1 then 0 else snd p) (combine (shp v) (skipn k o))) |}.
(* the last element of the result that comes from element c *)
Definition last_from (rs : list rent) (so c : list nat) : option (list nat) :=
  List.find (fun o => shape_eqb (source rs o) c) (rev (coords so)).
(* a[index] = v, or a[index] op= v with g the operation: the elements are read before anything is written, and the last value remains
   when an element is selected more than once *)
Definition np_put {V} (g : V -> V -> V) (a : arr V) (idx : list ind) (v : arr V) : result (arr V) :=
  let! rs := resolve_all (shp a) idx in
  let! so := out_shape rs in
  let! vb := np_broadcast v so in
  Ok {| shp := shp a; elt := fun c => match last_from rs so c with Some o => g (elt a c) (elt vb o) | None => elt a c end |}.
Definition np_putitem {V} (g : V -> V -> V) (a : arr V) (i : index) (v : arr V) : result (arr V) :=
  let! l := np_expand (tuple_of i) (length (shp a)) in np_put g a l v.

(* ---- setitem ---- *)
Section SetItem.
Context {V : Type} (vadd vsub vmul vdiv vand vor : V -> V -> V).
(* 1025-1045 *)
Definition method_op (method : chars) : option (V -> V -> V) :=
  if chars_eqb method (txt "set") then Some (fun _ x => x)
  else if chars_eqb method (txt "add") then Some vadd
  else if chars_eqb method (txt "sub") then Some vsub
  else if chars_eqb method (txt "mul") then Some vmul
  else if chars_eqb method (txt "div") then Some vdiv
  else if chars_eqb method (txt "and") then Some vand
  else if chars_eqb method (txt "or") then Some vor
  else None.
(* a Python number or a numpy array *)
Inductive value : Type := Scalar (x : V) | Array (v : arr V).
(* operators.__call__ on a value: a number cannot be indexed and has no axes *)
Definition value_ops (ops : list op) (v : value) : result (arr V) :=
  match v with
  | Array a => apply_ops ops a
  | Scalar x => match ops with
                | [] => Ok {| shp := []; elt := fun _ => x |}
                | OpIndex _ :: _ => Err TypeError
                | OpTranspose _ :: _ => Err ValueError
                end
  end.
(* the arrays by place *)
Definition store : Type := nat -> arr V.
Definition write (st : store) (k : nat) (a : arr V) : store := fun j => if Nat.eqb j k then a else st j.
(* 1019-1023: value[valueindex], the other entries of valueindex are full slices *)
Definition value_part (v : arr V) (ndim axis i : nat) : result (arr V) :=
  let! idx := np_expand (set_nth (repeat full ndim) axis (Num (Z.of_nat i))) (length (shp v)) in np_get v idx.
(* 1018-1045; sel: None when the value is taken apart along the axis *)
Fixpoint assign_all (method : chars) (ops : list op) (v : value) (sel : option (arr V)) (ndim axis : nat)
  (i : nat) (pairs : list (nat * list ind)) (st : store) : result store :=
  match pairs with
  | [] => Ok st
  | (arg, ind) :: pairs' =>
      let! valuesel := match sel, v with
                       | Some s, _ => Ok s
                       | None, Array a => let! p := value_part a ndim axis i in apply_ops ops p
                       | None, Scalar _ => Err TypeError
                       end in
      match method_op method with
      | None => Err ValueError
      | Some g => let! b := np_put g (st arg) ind valuesel in
                  assign_all method ops v sel ndim axis (S i) pairs' (write st arg b)
      end
  end.
Definition setitem (st : store) (arglist : list nat) (i : index) (ndim : nat) (v : value) (method : chars)
  (shapefull : option (list nat)) (axis : Z) : result store :=
  let! e := expand i ndim in
  match e with
  | One (Ints []) => Err IndexError
  | One _ => Err TypeError
  | Tup indexret =>
      let! (idx, ops2) := extract_newaxis indexret in
      let! (indexrest, shaperest, indexaxis, shapeaxis, ax, ops1) := extract_axis idx axis shapefull in
      let ops := ops1 ++ ops2 in
      let! args := (if nonchanging1 indexaxis shapeaxis then Ok arglist else select_args arglist indexaxis) in
      let! shapeafter := shape_afterindexing shapefull (Tup indexret) ndim in
      let! indexlist :=
        (if is_list indexaxis then
           let na := list_len indexaxis in
           let! nb := lengthadvanced indexrest shaperest in
           if negb (Nat.eqb nb 0) && negb (Nat.eqb nb na) then Err IndexError
           else decompose_listindexing indexrest na
         else Ok (repeat indexrest (length args))) in
      let pairs := combine args indexlist in
      match v, ax with
      | Array _, Some a => assign_all method ops v None (length shapeafter) a 0 pairs st
      | _, _ => let! s := value_ops ops v in assign_all method ops v (Some s) (length shapeafter) 0 0 pairs st
      end
  end.
End SetItem.
Arguments value V : clear implicits. Arguments Scalar {V}. Arguments Array {V}. Arguments store V : clear implicits.
