(* Model of src/spectrocrunch/utils/listtools.py *)
From Verif Require Import Base.

(* Anything flatten can be given: a leaf (a string or a non-iterable) or an
   iterable (list, tuple, set, array, ...).  utils/listtools.py:9-27.
   Simplification: iterating a leaf never raises, so the "except TypeError"
   branch (line 20-21) behaves like the final else branch. *)
Inductive tree (A : Type) : Type :=
| Leaf (a : A)
| Node (l : list (tree A)).
Arguments Leaf {A} a.
Arguments Node {A} l.

(* utils/listtools.py:9-27 flatten: the generator as the list it yields *)
Fixpoint flatten {A} (t : tree A) : list A :=
  match t with
  | Leaf a => [a]
  | Node l => flat_map flatten l
  end.

(* itertools.compress(lst, barr): stops at the shorter of the two *)
Fixpoint compress {A} (l : list A) (b : list bool) : list A :=
  match l, b with
  | x :: l', true :: b' => x :: compress l' b'
  | _ :: l', false :: b' => compress l' b'
  | _, _ => []
  end.

(* utils/listtools.py:34-45 *)
Definition listadvanced_bool {A} (l : list A) (b : list bool) (bnot : bool) : list A :=
  compress l (if bnot then map negb b else b).

(* utils/listtools.py:48-57 *)
Definition listadvanced_int {A} (l : list A) (ind : list Z) : result (list A) :=
  mapM (py_get l) ind.

(* An index sequence as listadvanced sees it: utils/instance.py:254-258
   isboolsequence is true only for non-empty sequences of bool. *)
Inductive adv_index : Type :=
| BoolIdx (b : list bool)
| IntIdx (i : list Z).

(* utils/listtools.py:60-72.  An empty index sequence is not a "bool sequence"
   and takes the integer branch, which returns the empty list. *)
Definition listadvanced {A} (l : list A) (ind : adv_index) : result (list A) :=
  match ind with
  | BoolIdx (x :: b) => Ok (listadvanced_bool l (x :: b) false)
  | BoolIdx [] => listadvanced_int l []
  | IntIdx i => listadvanced_int l i
  end.

(* utils/listtools.py:75-84 *)
Fixpoint where_from {A} (k : nat) (l : list A) (f : A -> bool) : list nat :=
  match l with
  | [] => []
  | x :: l' => if f x then k :: where_from (S k) l' f else where_from (S k) l' f
  end.
Definition where_idx {A} (l : list A) (f : A -> bool) : list nat := where_from 0 l f.

(* Python's sorted(..., key=...): a stable sort, modelled by insertion sort
   that inserts an element in front of the first strictly larger or equal one. *)
Section Sort.
Context {A : Type} (le : A -> A -> bool).
Fixpoint insert (x : A) (l : list A) : list A :=
  match l with
  | [] => [x]
  | y :: l' => if le x y then x :: y :: l' else y :: insert x l'
  end.
Fixpoint sorted (l : list A) : list A :=
  match l with
  | [] => []
  | x :: l' => insert x (sorted l')
  end.
End Sort.

(* utils/listtools.py:87-98.  None stands for the empty tuple that zip( *[])
   produces for empty input (it cannot be unpacked into two lists). *)
Definition sort2lists {A B} (le : A -> A -> bool) (l1 : list A) (l2 : list B)
  : option (list A * list B) :=
  match sorted (fun p q => le (fst p) (fst q)) (combine l1 l2) with
  | [] => None
  | s => Some (map fst s, map snd s)
  end.

Section Unique.
Context {A B : Type} (eqb : A -> A -> bool) (plus : B -> B -> B) (zero : B).

(* collections.Counter: missing keys count as zero; c[x] += y *)
Definition counter_add (x : A) (y : B) (c : list (A * B)) : list (A * B) :=
  assign eqb x
    (plus (match lookup eqb x c with Some v => v | None => zero end) y) c.

(* utils/listtools.py:113-118: the list comprehension that fills the counter
   and keeps x only when it was not yet in the counter *)
Fixpoint u2l_loop (c : list (A * B)) (l : list (A * B)) : list A * list (A * B) :=
  match l with
  | [] => ([], c)
  | (x, y) :: l' =>
      let b := negb (mem eqb x c) in
      let '(ks, c') := u2l_loop (counter_add x y c) l' in
      (if b then x :: ks else ks, c')
  end.

(* utils/listtools.py:110-120 unique2lists(add=True) *)
Definition unique2lists_add (l1 : list A) (l2 : list B) : list A * list B :=
  let '(ks, c) := u2l_loop [] (combine l1 l2) in
  (ks, map (fun x => match lookup eqb x c with Some v => v | None => zero end) ks).

(* utils/listtools.py:122-130: the comprehension with the "seen" set *)
Fixpoint unseen (seen : list A) (l : list (A * B)) : list (A * B) :=
  match l with
  | [] => []
  | (x, y) :: l' =>
      if existsb (eqb x) seen then unseen seen l'
      else (x, y) :: unseen (x :: seen) l'
  end.

(* utils/listtools.py:121-133 unique2lists(add=False): unpacking the empty tuple
   raises ValueError *)
Definition unique2lists_first (l1 : list A) (l2 : list B) : result (list A * list B) :=
  match unseen [] (combine l1 l2) with
  | [] => Err ValueError
  | l => Ok (map fst l, map snd l)
  end.

(* utils/listtools.py:136-148 *)
Definition sumrepeats (labels : list A) (counts : list B) : list A * list B :=
  let c := fold_left (fun c p => counter_add (fst p) (snd p) c) (combine labels counts) [] in
  (map fst c, map snd c).
End Unique.

(* utils/listtools.py:151-154 *)
Definition swap {A} (l : list A) (i j : Z) : result (list A) :=
  if i =? j then Ok l
  else
    let! a := py_get l j in
    let! b := py_get l i in
    let! l1 := py_set l i a in
    py_set l1 j b.

(* itertools.islice(itertools.cycle(lst), a, a + m) for a non-empty list: the
   elements at positions a .. a+m-1 of the infinite repetition of lst.  For the
   empty list the cycle is empty. *)
Definition cycle_slice {A} (l : list A) (a m : nat) : list A :=
  match l with
  | [] => []
  | x :: _ => map (fun k => nth (k mod length l) l x) (seq a m)
  end.

(* utils/listtools.py:157-161 *)
Definition roll {A} (l : list A) (n : Z) : list A :=
  if n =? 0 then l
  else cycle_slice l (Z.to_nat (Z.abs n)) (length l).

(* list.pop(i) *)
Definition py_pop {A} (l : list A) (i : Z) : result (A * list A) :=
  match py_pos (length l) i with
  | Some k => match nth_error l k with
              | Some a => Ok (a, firstn k l ++ skipn (S k) l)
              | None => Err IndexError
              end
  | None => Err IndexError
  end.

(* list.insert(j, x): j is clamped to the list, negative j counts from the end *)
Definition py_insert {A} (l : list A) (j : Z) (x : A) : list A :=
  let n := Z.of_nat (length l) in
  let j := if j <? 0 then Z.max 0 (j + n) else Z.min j n in
  firstn (Z.to_nat j) l ++ x :: skipn (Z.to_nat j) l.

(* utils/listtools.py:164-167 *)
Definition move {A} (l : list A) (i j : Z) : result (list A) :=
  if i =? j then Ok l
  else let! (x, l1) := py_pop l i in Ok (py_insert l1 j x).

(* utils/listtools.py:193-208 (key=None is the identity key) *)
Fixpoint unique_everseen_from {A K} (eqb : K -> K -> bool) (key : A -> K)
  (seen : list K) (l : list A) : list A :=
  match l with
  | [] => []
  | x :: l' =>
      if existsb (eqb (key x)) seen then unique_everseen_from eqb key seen l'
      else x :: unique_everseen_from eqb key (key x :: seen) l'
  end.
Definition unique_everseen {A K} (eqb : K -> K -> bool) (key : A -> K) (l : list A) :=
  unique_everseen_from eqb key [] l.
