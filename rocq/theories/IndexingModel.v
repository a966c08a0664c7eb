(* Model of src/spectrocrunch/utils/indexing.py *)
From Verif Require Export Base NumpyModel ListToolsModel.
Local Open Scope nat_scope.

(* instance.islistgen on an index entry *)
Definition is_list (i : ind) : bool := match i with Ints _ | Bools _ => true | _ => false end.
(* isinstance(index, numbers.Number) *)
Definition is_num (i : ind) : bool := match i with Num _ | NumB _ => true | _ => false end.
Definition full : ind := Sl slice_all.

(* first position of an element, list.index on numbers (present by construction
   where it is used; ValueError otherwise) *)
Fixpoint find_pos (k : nat) (l : list nat) : option nat :=
  match l with
  | [] => None
  | x :: l' => if Nat.eqb x k then Some O else option_map S (find_pos k l')
  end.

(* utils/indexing.py:616-629 positiveaxis *)
Definition positiveaxis (axis : Z) (ndim : nat) : result nat :=
  let axis := (if axis <? 0 then axis + Z.of_nat ndim else axis)%Z in
  if ((axis <? 0) || (Z.of_nat ndim <=? axis))%Z then Err IndexError else Ok (Z.to_nat axis).

(* utils/indexing.py:632-661 expand *)
Fixpoint replace_first_ell (l fillers : list ind) : list ind :=
  match l with
  | [] => []
  | Ell :: l' => fillers ++ l'
  | i :: l' => i :: replace_first_ell l' fillers
  end.
Definition expand (i : index) (ndim : nat) : result index :=
  match i with
  | Tup l =>
      let nindex := count (fun i => negb (is_new i)) l in
      if ndim <? nindex then Err IndexError
      else if existsb is_ell l then Ok (Tup (replace_first_ell l (repeat full (ndim - nindex + 1))))
      else if Nat.eqb nindex ndim then Ok (Tup l)
      else Ok (Tup (l ++ repeat full (ndim - nindex)))
  | One Ell => Ok (Tup (repeat full ndim))
  | One New => Ok (Tup (New :: repeat full ndim))
  | One i => if 1 <? ndim then Ok (Tup (i :: repeat full (ndim - 1))) else Ok (One i)
  end.

(* ---- recorded operations: utils/indexing.py:738-793 ---- *)
Inductive op : Type :=
| OpIndex (i : list ind)
| OpTranspose (axes : list nat).
Definition apply_op {V} (o : op) (a : arr V) : result (arr V) :=
  match o with
  | OpIndex i => np_get a i
  | OpTranspose axes => if is_axes axes (length (shp a)) then Ok (np_transpose a axes) else Err ValueError
  end.
(* operators.__call__ *)
Fixpoint apply_ops {V} (ops : list op) (a : arr V) : result (arr V) :=
  match ops with
  | [] => Ok a
  | o :: ops' => let! b := apply_op o a in apply_ops ops' b
  end.
(* operators.append for a single operation (lines 769-784): two transpositions at
   the end are merged, but only when there are already two operations *)
Definition ops_append (ops : list op) (o : op) : result (list op) :=
  if 1 <? length ops then
    match last ops o, o with
    | OpTranspose a1, OpTranspose a2 =>
        let! axes := mapM (fun k => match nth_error a1 k with Some x => Ok x | None => Err IndexError end) a2 in
        Ok (removelast ops ++ [OpTranspose axes])
    | _, _ => Ok (ops ++ [o])
    end
  else Ok (ops ++ [o]).

(* a sequence of calls of operators.append *)
Fixpoint record (ops : list op) (l : list op) : result (list op) :=
  match l with
  | [] => Ok ops
  | o :: l' => let! ops' := ops_append ops o in record ops' l'
  end.

(* utils/indexing.py:796-811 move_axis *)
Definition move_axis (ndim i1 i2 : nat) : option (list nat) :=
  if Nat.eqb i1 i2 then None
  else Some (insert_at i2 (nth i1 (seq 0 ndim) 0) (remove_at i1 (seq 0 ndim))).

Definition append_transpose (ops : list op) (axes : option (list nat)) : result (list op) :=
  match axes with Some axes => ops_append ops (OpTranspose axes) | None => Ok ops end.

(* list.index(2) that must succeed *)
Definition must_find (k : nat) (l : list nat) : result nat :=
  match find_pos k l with Some p => Ok p | None => Err ValueError end.

(* utils/indexing.py:135-145 replace_dimchanging: the first component *)
Definition probe_dimchanging (i : ind) : ind :=
  if is_list i then Ints [0; 0]%Z else if is_num i then Num 0 else
  match i with New => New | _ => full end.

(* utils/indexing.py:148-179 extract_dimnonchanging: the final axis of list
   indexing (the only part extract_axis uses) *)
Definition dimnonchanging_axis (idx : list ind) : result (option nat) :=
  match idx with
  | [] => Ok None
  | _ =>
      let! s := np_shape (repeat 1 (length (filter (fun i => negb (is_new i)) idx)))
                         (map probe_dimchanging idx) in
      Ok (find_pos 2 s)
  end.

(* utils/indexing.py:182-242 extract_newaxis, replace_nonnewaxis *)
Definition extract_newaxis (idx : list ind) : result (list ind * list op) :=
  if existsb is_new idx then
    let withnew := map probe_dimchanging idx in
    let without := filter (fun i => negb (is_new i)) withnew in
    let s := repeat 3 (length without) in
    let! s1 := np_shape s withnew in
    let s1b := filter (fun n => negb (Nat.eqb n 1)) s1 in
    let! s2 := match s with [] => Ok [] | _ => np_shape s without end in
    let idx' := filter (fun i => negb (is_new i)) idx in
    let! ops :=
      match find_pos 2 s2 with
      | Some p2 => let! p1 := must_find 2 s1b in append_transpose [] (move_axis (length s2) p2 p1)
      | None => Ok []
      end in
    let! ops := ops_append ops (OpIndex (map (fun n => if Nat.eqb n 1 then New else full) s1)) in
    Ok (idx', ops)
  else Ok (idx, []).

(* utils/indexing.py:338-346 replace_trimindex *)
Definition probe_trim (i : ind) : ind :=
  if is_list i then Ints [0; 0]%Z else if is_num i then Num 0 else full.

(* utils/indexing.py:349-413 extract_axis, for an index without np.newaxis.
   Result: indexrest, shaperest, indexaxis, shapeaxis, axis, ops *)
Definition extract_axis (idx : list ind) (axis : Z) (shapefull : option (list nat))
  : result (list ind * option (list nat) * ind * option nat * option nat * list op) :=
  let ndim := length idx in
  let! ax := positiveaxis axis ndim in
  match nth_error idx ax with
  | None => Err IndexError
  | Some indexaxis =>
      let indexrest := remove_at ax idx in
      let! (shapeaxis, shaperest) :=
        match shapefull with
        | None => Ok (None, None)
        | Some s => match nth_error s ax with
                    | Some n => Ok (Some n, Some (remove_at ax s))
                    | None => Err IndexError
                    end
        end in
      let! iadv := dimnonchanging_axis idx in
      if is_list indexaxis then Ok (indexrest, shaperest, indexaxis, shapeaxis, iadv, [])
      else
        let! s1 := np_shape (set_nth (repeat 1 ndim) ax 3) (map probe_trim idx) in
        let axis' := find_pos 3 s1 in
        match find_pos 2 s1 with
        | None => Ok (indexrest, shaperest, indexaxis, shapeaxis, axis', [])
        | Some p1 =>
            let! s2 := np_shape (repeat 1 (ndim - 1)) (map probe_trim indexrest) in
            if existsb (Nat.eqb 2) s2 then
              let s2' := match axis' with Some a => insert_at a 3 s2 | None => s2 end in
              let! p2 := must_find 2 s2' in
              let! ops := append_transpose [] (move_axis (length s1) p2 p1) in
              Ok (indexrest, shaperest, indexaxis, shapeaxis, axis', ops)
            else Ok (indexrest, shaperest, indexaxis, shapeaxis, axis', [])
        end
  end.

(* utils/indexing.py:542-581 nonchanging of a single entry *)
Definition slice_eqb (a b : slice) : bool :=
  let oeq (x y : option Z) := match x, y with
    | Some u, Some v => (u =? v)%Z | None, None => true | _, _ => false end in
  oeq (start a) (start b) && oeq (stop a) (stop b) && oeq (step a) (step b).
Fixpoint zlist_eqb (l m : list Z) : bool :=
  match l, m with
  | [], [] => true
  | x :: l', y :: m' => (x =? y)%Z && zlist_eqb l' m'
  | _, _ => false
  end.
Definition nonchanging1 (i : ind) (n : option nat) : bool :=
  match i with
  | Sl s => slice_eqb s slice_all
            || slice_eqb s {| start := Some 0%Z; stop := None; step := None |}
            || slice_eqb s {| start := None; stop := None; step := Some 1%Z |}
  | Ell => true
  | New => false
  | Ints l => match n with None => false | Some n => zlist_eqb l (map Z.of_nat (seq 0 n)) end
  | Bools l => match n with None => false | Some _ => forallb (fun b => b) l end
  | Num _ | NumB _ => false
  end.

(* utils/indexing.py:22-51 lengthadvanced *)
Definition list_len (i : ind) : nat :=
  match i with
  | Ints l => length l
  | Bools l => length (filter (fun b => b) l)
  | _ => 0
  end.
Definition lengthadvanced (idx : list ind) (shape : option (list nat)) : result nat :=
  match shape with
  | None => Err TypeError    (* zip with None *)
  | Some s =>
      let tmp := map (fun p => list_len (fst p)) (combine (filter (fun i => negb (is_new i)) idx) s) in
      match filter (fun n => negb (Nat.eqb n 0)) tmp with
      | [] => Ok 0
      | n :: tmp' => if forallb (Nat.eqb n) tmp' then Ok n else Err IndexError
      end
  end.

(* utils/indexing.py:252-302 axesorder_afterindexing on an expanded index: what
   each dimension of the result comes from *)
Inductive origin : Type := FromLists | FromNew | FromAxis (k : nat).
Definition probe_order (i : ind) : ind :=
  if is_list i then Ints [] else if is_num i then Num 0 else
  match i with New => New | _ => full end.
Definition axesorder (idx : list ind) (ndim : nat) : result (list origin) :=
  let! s := np_shape (seq 2 ndim) (map probe_order idx) in
  Ok (map (fun n => match n with 0 => FromLists | 1 => FromNew | S (S k) => FromAxis k end) s).

(* utils/indexing.py:305-335 shape_afterindexing *)
Definition shape_afterindexing (shape : option (list nat)) (i : index) (ndim : nat)
  : result (list nat) :=
  let s := match shape with Some s => s | None => repeat 1 ndim end in
  let! e := expand i (length s) in
  match e with
  | One _ => Err TypeError
  | Tup idx =>
      let! axes := axesorder idx (length s) in
      let nonew := filter (fun i => negb (is_new i)) idx in
      mapM (fun a =>
        match a with
        | FromNew => Ok 1
        | FromLists => lengthadvanced nonew (Some s)
        | FromAxis k =>
            match nth_error nonew k, nth_error s k with
            | Some (Sl sl), Some n => let! ps := slice_positions n sl in Ok (length ps)
            | Some _, Some n => Ok n
            | _, _ => Err IndexError
            end
        end) axes
  end.

(* utils/indexing.py:859-886 decompose_listindexing.  The replacement of bool
   lists (lines 870-873) tests the wrong variable and is never used. *)
Definition decompose_entry (j : nat) (i : ind) : result ind :=
  match i with
  | Ints l => match nth_error l j with Some z => Ok (Num z) | None => Err IndexError end
  | Bools l => match nth_error l j with Some b => Ok (NumB b) | None => Err IndexError end
  | _ => Ok i
  end.
Definition decompose_listindexing (idx : list ind) (nlist : nat) : result (list (list ind)) :=
  mapM (fun j => mapM (decompose_entry j) idx) (seq 0 nlist).

Section GetItem.
Context {Arg V : Type} (generator : Arg -> arr V) (dflt : V).

(* arglist[indexaxis] and listtools.listadvanced(arglist, indexaxis) *)
Definition pick (l : list Arg) (ps : list nat) : list Arg :=
  flat_map (fun p => match nth_error l p with Some a => [a] | None => [] end) ps.
Definition select_args (l : list Arg) (i : ind) : result (list Arg) :=
  match i with
  | Num z => let! a := py_get l z in Ok [a]
  | Sl s => let! ps := slice_positions (length l) s in Ok (pick l ps)
  | Ints z => listadvanced l (IntIdx z)
  | Bools b => listadvanced l (BoolIdx b)
  | NumB b => let! a := py_get l (if b then 1%Z else 0%Z) in Ok [a]
  | New | Ell => Err TypeError
  end.

(* utils/indexing.py:889-958 getitem with prepare_getitem (814-841).  Returned
   beside the array: the arguments for which the generator was called. *)
Definition getitem (arglist : list Arg) (i : index) (ndim : nat)
  (shapefull : option (list nat)) (axis : Z) : result (list Arg * arr V) :=
  let! e := expand i ndim in
  match e with
  | One (Ints []) => Err IndexError
  | One _ => Err TypeError
  | Tup indexret =>
      let! (idx, ops2) := extract_newaxis indexret in
      let! (indexrest, shaperest, indexaxis, shapeaxis, ax, ops1) := extract_axis idx axis shapefull in
      let ops := ops1 ++ ops2 in
      let! args := (if nonchanging1 indexaxis shapeaxis then Ok arglist
                    else select_args arglist indexaxis) in
      let bargsingleton := negb (nonchanging1 indexaxis shapeaxis) && is_num indexaxis in
      let! (used, data) :=
        (if is_list indexaxis then
           let na := list_len indexaxis in
           let! nb := lengthadvanced indexrest shaperest in
           if negb (Nat.eqb nb 0) && negb (Nat.eqb nb na) then Err IndexError
           else
             let! indexlist := decompose_listindexing indexrest na in
             let pairs := combine args indexlist in
             let! d := mapM (fun p => np_get (generator (fst p)) (snd p)) pairs in
             Ok (map fst pairs, d)
         else
           let! d := mapM (fun a => np_get (generator a) indexrest) args in Ok (args, d)) in
      let! r :=
        match data with
        | [] => let! s := shape_afterindexing shapefull (Tup indexret) ndim in
                Ok {| shp := s; elt := fun _ => dflt |}
        | [d] => if bargsingleton then apply_ops ops d
                 else match ax with
                      | Some a => let! b := np_stack data a in apply_ops ops b
                      | None => Err TypeError
                      end
        | _ => match ax with
               | Some a => let! b := np_stack data a in apply_ops ops b
               | None => Err TypeError
               end
        end in
      Ok (used, r)
  end.
End GetItem.
