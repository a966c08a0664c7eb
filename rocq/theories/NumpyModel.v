(* The part of numpy that the modelled code relies on: n-dimensional arrays,
   indexing (slices, integers, lists, np.newaxis, Ellipsis), np.stack,
   np.transpose.  This is a model of a library, not of the repository. *)
From Verif Require Export Base.
Local Open Scope nat_scope.

(* An array: its shape and its element at each index tuple.  Only index tuples
   inside the shape matter. *)
Record arr (V : Type) : Type := { shp : list nat; elt : list nat -> V }.
Arguments shp {V}. Arguments elt {V}. Arguments Build_arr {V}.

Definition inside (s o : list nat) : Prop := Forall2 (fun n k => k < n) s o.

Definition arr_eq {V} (a b : arr V) : Prop :=
  shp a = shp b /\ forall o, inside (shp a) o -> elt a o = elt b o.

(* list.insert / list.pop on in-range positions *)
Definition insert_at {A} (i : nat) (x : A) (l : list A) : list A := firstn i l ++ x :: skipn i l.
Definition remove_at {A} (i : nat) (l : list A) : list A := firstn i l ++ skipn (S i) l.

(* ---- index entries ---- *)
Record slice : Type := { start : option Z; stop : option Z; step : option Z }.
Definition slice_all : slice := {| start := None; stop := None; step := None |}.

Inductive ind : Type :=
| New                       (* np.newaxis *)
| Ell                       (* Ellipsis *)
| Num (z : Z)
| NumB (b : bool)           (* a bool used as a number *)
| Sl (s : slice)
| Ints (l : list Z)
| Bools (l : list bool).    (* a non-empty list of bool *)

(* slice.indices(n) followed by range(): the positions a slice selects in a
   dimension of length n, in order.  Step 0 raises ValueError. *)
Definition slice_start (n : Z) (neg : bool) (x : option Z) : Z :=
  (match x with
   | None => if neg then n - 1 else 0
   | Some v => let v := if v <? 0 then v + n else v in
               if neg then Z.max (-1) (Z.min v (n - 1)) else Z.max 0 (Z.min v n)
   end)%Z.
Definition slice_stop (n : Z) (neg : bool) (x : option Z) : Z :=
  (match x with
   | None => if neg then -1 else n
   | Some v => let v := if v <? 0 then v + n else v in
               if neg then Z.max (-1) (Z.min v (n - 1)) else Z.max 0 (Z.min v n)
   end)%Z.
Definition range_list (a b k : Z) : list Z :=
  let cnt := (if 0 <? k then (b - a + k - 1) / k else (a - b + - k - 1) / (- k))%Z in
  map (fun i => (a + Z.of_nat i * k)%Z) (seq 0 (Z.to_nat cnt)).
Definition slice_positions (n : nat) (s : slice) : result (list nat) :=
  let k := match step s with Some k => k | None => 1%Z end in
  if (k =? 0)%Z then Err ValueError
  else
    let neg := (k <? 0)%Z in
    let n := Z.of_nat n in
    Ok (map Z.to_nat (range_list (slice_start n neg (start s)) (slice_stop n neg (stop s)) k)).

(* positions of True *)
Fixpoint true_positions (k : nat) (l : list bool) : list nat :=
  match l with
  | [] => []
  | true :: l' => k :: true_positions (S k) l'
  | false :: l' => true_positions (S k) l'
  end.

(* an index entry resolved for a dimension of known length *)
Inductive rent : Type :=
| RNew
| RSl (ps : list nat)
| RInt (p : nat)
| RAdv (ps : list nat).

Definition norm (n : nat) (z : Z) : result nat :=
  match py_pos n z with Some p => Ok p | None => Err IndexError end.

(* Scalar bools and further ellipses are outside this model of numpy: UserError 0. *)
Definition resolve (n : nat) (i : ind) : result rent :=
  match i with
  | New => Ok RNew
  | Ell | NumB _ => Err (UserError 0)
  | Num z => let! p := norm n z in Ok (RInt p)
  | Sl s => let! ps := slice_positions n s in Ok (RSl ps)
  | Ints l => let! ps := mapM (norm n) l in Ok (RAdv ps)
  | Bools l => if Nat.eqb (length l) n then Ok (RAdv (true_positions 0 l)) else Err IndexError
  end.

(* one entry per dimension, np.newaxis uses none *)
Fixpoint resolve_all (s : list nat) (idx : list ind) : result (list rent) :=
  match idx with
  | [] => match s with [] => Ok [] | _ => Err IndexError end
  | New :: idx' => let! rs := resolve_all s idx' in Ok (RNew :: rs)
  | i :: idx' =>
      match s with
      | [] => Err IndexError
      | n :: s' => let! r := resolve n i in let! rs := resolve_all s' idx' in Ok (r :: rs)
      end
  end.

Definition is_radv (r : rent) : bool := match r with RAdv _ => true | _ => false end.
Definition has_adv (rs : list rent) : bool := existsb is_radv rs.
(* with a list present, integers take part in the advanced indexing *)
Definition adv_flag (r : rent) : bool := match r with RAdv _ | RInt _ => true | _ => false end.

Fixpoint drop_while (b : bool) (l : list bool) : list bool :=
  match l with
  | [] => []
  | x :: l' => if Bool.eqb x b then drop_while b l' else l
  end.
Fixpoint first_true (l : list bool) : nat :=
  match l with [] => O | true :: _ => O | false :: l' => S (first_true l') end.
Definition contiguous (l : list bool) : bool :=
  forallb negb (drop_while true (drop_while false l)).

(* where the dimension of the lists goes: at the first list/integer when they are
   next to each other, else in front *)
Definition adv_pos (rs : list rent) : nat :=
  let fl := map adv_flag rs in
  if contiguous fl then first_true fl else O.

(* lengths of the lists broadcast together *)
Fixpoint broadcast (ls : list nat) : result nat :=
  match ls with
  | [] => Ok 1
  | n :: ls' =>
      let! m := broadcast ls' in
      if Nat.eqb n m then Ok n else if Nat.eqb n 1 then Ok m
      else if Nat.eqb m 1 then Ok n else Err IndexError
  end.
Definition adv_lens (rs : list rent) : list nat :=
  flat_map (fun r => match r with RAdv ps => [length ps] | _ => [] end) rs.

(* lengths of the dimensions that are kept or new *)
Definition kept_lens (rs : list rent) : list nat :=
  flat_map (fun r => match r with RNew => [1] | RSl ps => [length ps] | _ => [] end) rs.

(* element j of a broadcast list *)
Definition bnth (ps : list nat) (j : nat) : nat :=
  nth (if Nat.eqb (length ps) 1 then 0 else j) ps 0.

(* from the coordinates of the kept/new dimensions and the coordinate along the
   list dimension to the coordinates in the indexed array *)
Fixpoint fill (rs : list rent) (rest : list nat) (j : nat) : list nat :=
  match rs with
  | [] => []
  | RNew :: rs' => fill rs' (tl rest) j
  | RSl ps :: rs' => nth (hd 0 rest) ps 0 :: fill rs' (tl rest) j
  | RInt p :: rs' => p :: fill rs' rest j
  | RAdv ps :: rs' => bnth ps j :: fill rs' rest j
  end.

Definition out_shape (rs : list rent) : result (list nat) :=
  if has_adv rs then let! n := broadcast (adv_lens rs) in Ok (insert_at (adv_pos rs) n (kept_lens rs))
  else Ok (kept_lens rs).
Definition out_elt {V} (f : list nat -> V) (rs : list rent) (o : list nat) : V :=
  if has_adv rs then f (fill rs (remove_at (adv_pos rs) o) (nth (adv_pos rs) o 0))
  else f (fill rs o 0).

(* a[index] for a tuple with one entry per dimension *)
Definition np_get {V} (a : arr V) (idx : list ind) : result (arr V) :=
  let! rs := resolve_all (shp a) idx in
  let! s := out_shape rs in
  Ok {| shp := s; elt := out_elt (elt a) rs |}.

(* np.empty(shape)[index].shape *)
Definition np_shape (s : list nat) (idx : list ind) : result (list nat) :=
  let! rs := resolve_all s idx in out_shape rs.

(* a[index]: any index.  An ellipsis stands for the missing dimensions (possibly
   none), without ellipsis they are at the end; a non-tuple is a 1-tuple. *)
Inductive index : Type := One (i : ind) | Tup (l : list ind).
Definition is_new (i : ind) : bool := match i with New => true | _ => false end.
Definition is_ell (i : ind) : bool := match i with Ell => true | _ => false end.
Definition count (f : ind -> bool) (l : list ind) : nat := length (filter f l).
Definition tuple_of (i : index) : list ind := match i with One i => [i] | Tup l => l end.
Fixpoint np_fill_ell (l : list ind) (fillers : list ind) : list ind :=
  match l with
  | [] => []
  | Ell :: l' => fillers ++ l'
  | i :: l' => i :: np_fill_ell l' fillers
  end.
Definition np_expand (l : list ind) (ndim : nat) : result (list ind) :=
  let given := count (fun i => negb (is_new i) && negb (is_ell i)) l in
  if (1 <? count is_ell l) || (ndim <? given) then Err IndexError
  else
    let fillers := repeat (Sl slice_all) (ndim - given) in
    Ok (if existsb is_ell l then np_fill_ell l fillers else l ++ fillers).
Definition np_getitem {V} (a : arr V) (i : index) : result (arr V) :=
  let! l := np_expand (tuple_of i) (length (shp a)) in np_get a l.

(* np.transpose(a, axes); the axes must be a permutation of all axes (numpy raises
   ValueError otherwise) *)
Definition is_axes (axes : list nat) (n : nat) : bool :=
  Nat.eqb (length axes) n && forallb (fun k => existsb (Nat.eqb k) axes) (seq 0 n).
Fixpoint index_nat (k : nat) (l : list nat) : nat :=
  match l with [] => O | x :: l' => if Nat.eqb x k then O else S (index_nat k l') end.
Definition np_transpose {V} (a : arr V) (axes : list nat) : arr V :=
  {| shp := map (fun k => nth k (shp a) 0) axes;
     elt := fun o => elt a (map (fun k => nth (index_nat k axes) o 0) (seq 0 (length axes))) |}.

(* np.stack(list, axis) for an axis that is in range *)
Fixpoint shape_eqb (s t : list nat) : bool :=
  match s, t with
  | [], [] => true
  | a :: s', b :: t' => Nat.eqb a b && shape_eqb s' t'
  | _, _ => false
  end.
Definition np_stack {V} (l : list (arr V)) (axis : nat) : result (arr V) :=
  match l with
  | [] => Err ValueError
  | a :: _ =>
      if forallb (fun b => shape_eqb (shp b) (shp a)) l then
        Ok {| shp := insert_at axis (length l) (shp a);
              elt := fun o => elt (nth (nth axis o 0) l a) (remove_at axis o) |}
      else Err ValueError
  end.
