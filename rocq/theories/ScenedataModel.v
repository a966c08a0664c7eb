(* Model of src/spectrocrunch/visualization/scene_data.py: items, axes and data of ImageBase, files of XanesSpec.
   A grid is its axis names and sizes, its stack dimensions and its pixels; instruments, units, interpolation and the reading of files are not modelled. *)
From Verif Require Export H5gridModel.
From Coq Require Export String ZArith.
Local Open Scope list_scope.
Local Open Scope nat_scope.

(* an index of the grid: slice(None) or an integer *)
Inductive index : Type := Slice | At (j : Z).
Record stack (P : Type) : Type := { gaxes : list (string * nat); gstackdim : nat; gstack_dims : list nat; gread : list nat -> P }.
Arguments gaxes {P} s.
Arguments gstackdim {P} s.
Arguments gstack_dims {P} s.
Arguments gread {P} s.
Definition gshape {P} (g : stack P) : list nat := map snd (gaxes g).
(* shape of grid[idx] *)
Fixpoint selected (idx : list index) (sh : list nat) : result (list nat) :=
  match idx, sh with
  | [], [] => Ok []
  | Slice :: idx', n :: sh' => let! r := selected idx' sh' in Ok (n :: r)
  | At j :: idx', n :: sh' => if ((- Z.of_nat n <=? j) && (j <? Z.of_nat n))%Z then selected idx' sh' else Err IndexError
  | _, _ => Err IndexError
  end.
(* position in the grid of pixel p of grid[idx] *)
Fixpoint position (idx : list index) (sh p : list nat) : list nat :=
  match idx, sh with
  | Slice :: idx', n :: sh' => match p with x :: p' => x :: position idx' sh' p' | [] => [] end
  | At j :: idx', n :: sh' => Z.to_nat (if (j <? 0)%Z then j + Z.of_nat n else j)%Z :: position idx' sh' p
  | _, _ => []
  end.
(* an item: one value, a tuple of values or a list of values *)
Inductive item (V : Type) : Type := Value (v : V) | Tuple (l : list V) | AList (l : list V).
Arguments Value {V} v.
Arguments Tuple {V} l.
Arguments AList {V} l.
(* 106-112. [locate d v]: axis.locate of axis d with detectindex (AxisModel); [labels j]: the label of the stack axis at j with the suffix of its unit *)
Fixpoint place {V} (locate : nat -> V -> result Z) (labels : Z -> string) (stackdim : nat) (dvs : list (nat * V)) (st : list index * option string) : result (list index * option string) :=
  match dvs with
  | [] => Ok st
  | (d, v) :: dvs' =>
    if d <? List.length (fst st) then
      let! j := locate d v in
      place locate labels stackdim dvs' (set_nth (fst st) d (At j), if d =? stackdim then Some (labels j) else snd st)
    else Err IndexError
  end.
(* 103-105: list + tuple is a TypeError *)
Definition item_values {V} (minus1 : V) (n : nat) (it : item V) : result (list V) :=
  match it with
  | Value v => Ok (v :: repeat minus1 (n - 1))
  | Tuple l => Ok (l ++ repeat minus1 (n - List.length l))
  | AList _ => Err TypeError
  end.
(* 102-114; the index list and the label are those of the previous item *)
Fixpoint place_items {V} (locate : nat -> V -> result Z) (labels : Z -> string) (minus1 : V) (stackdim : nat) (stack_dims : list nat) (items : list (item V)) (st : list index * option string)
    : result (list (list index * string)) :=
  match items with
  | [] => Ok []
  | it :: items' =>
    let! vs := item_values minus1 (List.length stack_dims) it in
    let! st := place locate labels stackdim (combine stack_dims vs) st in
    match snd st with
    | None => Err NameError
    | Some lab => let! r := place_items locate labels minus1 stackdim stack_dims items' st in Ok ((fst st, lab) :: r)
    end
  end.
(* 88-116 set_items *)
Definition set_items {P V} (g : stack P) (locate : nat -> V -> result Z) (labels : Z -> string) (minus1 : V) (items : option (list (item V))) : result (list (list index * string)) :=
  let idx := repeat Slice (List.length (gaxes g)) in
  match nth_error (gaxes g) (gstackdim g) with
  | None => Err IndexError
  | Some (_, n) =>
    match items with
    | None => Ok (map (fun i => (set_nth idx (gstackdim g) (At (Z.of_nat i)), labels (Z.of_nat i))) (seq 0 n))
    | Some items => place_items locate labels minus1 (gstackdim g) (gstack_dims g) items (idx, None)
    end
  end.
Definition image_dims {P} (g : stack P) : list nat := other_dims (List.length (gaxes g)) (gstack_dims g).
(* 126-132 *)
Definition transpose {P} (g : stack P) (imageaxes : string * string) : result bool :=
  match image_dims g with
  | [] => Err IndexError
  | d :: _ => match nth_error (gaxes g) d with
              | None => Err IndexError
              | Some (name, _) => Ok (if String.eqb name (fst imageaxes) || String.eqb name (snd imageaxes) then negb (String.eqb name (fst imageaxes)) else false)
              end
  end.
Definition axes_of {P} (g : stack P) : list (string * nat) := flat_map (fun d => match nth_error (gaxes g) d with Some a => [a] | None => [] end) (image_dims g).
(* 118-124 *)
Definition image_axes {P} (g : stack P) (imageaxes : string * string) : result (list (string * nat)) :=
  let! t := transpose g imageaxes in Ok (if t then rev (axes_of g) else axes_of g).
(* 82-84: the names of the axes; [given]: the parameters axis0name and axis1name, [other]: a parameter named kwargs *)
Definition axisnames (given : option string * option string) (other : option string) (titles : string * string) : string * string :=
  (match other with Some s => s | None => fst titles end, match other with Some s => s | None => snd titles end).
(* data[..., i] = x: numpy drops leading dimensions of size one *)
Fixpoint fits (src dst : list nat) : bool :=
  if List.length dst <? List.length src then match src with n :: src' => (n =? 1) && fits src' dst | [] => true end
  else broadcastable src (skipn (List.length dst - List.length src) dst).
(* 173-179; the result: the pixels, channels and labels *)
Fixpoint show {P} (g : stack P) (dst : list nat) (its : list (option (list index * string))) (iout : nat) : result (list (list nat -> P) * list (option nat) * list string) :=
  match its with
  | [] => Ok ([], [], [])
  | None :: its' => let! (d, c, l) := show g dst its' iout in Ok (d, None :: c, l)
  | Some (idx, lab) :: its' =>
    let! src := selected idx (gshape g) in
    if fits src dst then
      let! (d, c, l) := show g dst its' (S iout) in
      Ok ((fun p => gread g (position idx (gshape g) (repeat 0 (List.length src - List.length dst) ++ clip (skipn (List.length src - List.length dst) src) (skipn (List.length dst - List.length src) p)))) :: d, Some iout :: c, lab :: l)
    else Err ValueError
  end.
Definition swap (l : list nat) : list nat := match l with a :: b :: r => b :: a :: r | _ => l end.
(* 142-183 displaydata: shape of the images, pixels, channels and labels. With one image axis the transposition (of pixels and channels) is not modelled. *)
Definition displaydata {P} (g : stack P) (imageaxes : string * string) (items : list (list index * string)) (sel : option (list (option Z)))
    : result (list nat * list (list nat -> P) * list (option nat) * list string) :=
  let! its := (match sel with
               | None => Ok (map Some items)
               | Some l => mapM (fun i => match i with None => Ok None | Some i => let! x := py_get items i in Ok (Some x) end) l
               end) in
  let dst := map snd (axes_of g) in
  let! (d, c, l) := show g dst its 0 in
  let! t := transpose g imageaxes in
  if t then match dst with
            | _ :: _ :: _ => Ok (swap dst, map (fun f p => f (swap p)) d, c, l)
            | _ => Err NotImplementedError
            end
  else Ok (dst, d, c, l).
(* 236-247 listoflists *)
Inductive lists (A : Type) : Type := Nothing | One (a : A) | Flat (l : list A) | Nested (l : list (list A)).
Arguments Nothing {A}.
Arguments One {A} a.
Arguments Flat {A} l.
Arguments Nested {A} l.
Definition listoflists {A} (x : lists A) : list (list A) :=
  match x with
  | Nothing => [[]]
  | One a => [[a]]
  | Flat l => [l]
  | Nested [] => [[]]
  | Nested l => l
  end.
(* 249-267: the spectra of each file; [all f]: the numbers of all spectra of file f *)
Definition spectra {A} (all : string -> list A) (filenames : list string) (numbers labels : lists A) : list (string * list A * list A) :=
  flat_map (fun x => let '(f, ns, ls) := x in
                     let ns := match ns with [] => all f | _ => ns end in
                     match ns with [] => [] | _ => [(f, ns, match ls with [] => ns | _ => ls end)] end)
    (combine (combine filenames (listoflists numbers)) (listoflists labels)).
