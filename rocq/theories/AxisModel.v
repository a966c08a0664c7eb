(* Axes of a data grid: /repo/src/spectrocrunch/process/axis.py

   Simplifications, for the whole file:
   - an axis of type "quantitative" carries exact rationals in one unit; unit
     conversion (pint) is not modelled, nor are the name and the title;
   - floating point rounding is not modelled;
   - an axis object is the value of its attributes: a setter returns the axis
     after the assignment. *)
From Coq Require Import Qround.
From Verif Require Import Base QcTac.
Local Open Scope Qc_scope.

(* np.arange(n) *)
Definition arange (n : Z) : list Z := map Z.of_nat (seq 0 (Z.to_nat n)).

(* np.linspace(start, stop, num): the last point is stop itself, a negative
   number of points is refused *)
Definition linspace (a b : Qc) (num : Z) : result (list Qc) :=
  if (num <? 0)%Z then Err ValueError
  else if (num =? 0)%Z then Ok []
  else if (num =? 1)%Z then Ok [a]
  else Ok (map (fun i => a + Qc_of_Z i * ((b - a) / Qc_of_Z (num - 1)))
               (arange (num - 1)) ++ [b]).

(* axis.py:37 Axis, 519 AxisRegular, 554 AxisRegularInc, 603 AxisNumber,
   622 AxisSegments.  The constructor arguments are the private attributes
   _start, _end, _stepsize, _size and _limits, _nsteps, _stepsizes. *)
Inductive form : Type :=
| Plain
| Regular (start stop step : Qc) (size : Z)
| RegularInc (start stop step : Qc) (size : Z)
| Number (start : Qc)
| Segments (limits : list Qc) (nsteps : list Z) (stepsizes : list Qc).

Record axis : Type := Axis {
  a_form : form;
  a_values : list Qc;
  a_precision : Qc
}.

(* axis.py:538-551, the values setter of AxisRegular *)
Definition make_regular (p start stop : Qc) (nsteps : Z) : result axis :=
  let size := (nsteps + 1)%Z in
  let step := if (size =? 1)%Z then 0
              else (stop - start) / Qc_of_Z (size - 1) in
  let! values := linspace start stop size in
  Ok (Axis (Regular start stop step size) values p).

(* axis.py:573-581, the values setter of AxisRegularInc *)
Definition make_inc (p start step : Qc) (nsteps : Z) : result axis :=
  let size := (nsteps + 1)%Z in
  let stop := start + step * Qc_of_Z (size - 1) in
  Ok (Axis (RegularInc start stop step size)
           (map (fun i => Qc_of_Z i * step + start) (arange size)) p).

(* axis.py:608-616, the values setter of AxisNumber *)
Definition make_number (p start : Qc) : axis := Axis (Number start) [start] p.

(* axis.py:708-717, the loop of the values setter of AxisSegments: limits, step
   sizes and values.  A segment without steps divides by zero (plain numbers;
   numpy numbers would give nan as step size and no points). *)
Fixpoint seg_loop (limits : list Qc) (nsteps : list Z)
  : result (list Qc * list Qc * list Qc) :=
  match nsteps with
  | [] => match limits with
          | [] => Err IndexError
          | stop :: _ => Ok ([stop], [], [stop])
          end
  | n :: ns =>
      match limits with
      | start :: ((stop :: _) as limits') =>
          if (n =? 0)%Z then Err ZeroDivisionError else
          let inc := (stop - start) / Qc_of_Z n in
          let vals := map (fun i => start + inc * Qc_of_Z i) (arange n) in
          let! (lm, st, vs) := seg_loop limits' ns in
          Ok (start :: lm, inc :: st, vals ++ vs)
      | _ => Err IndexError
      end
  end.

(* axis.py:694-722.  Without segments the variable `end` is never assigned. *)
Definition make_segments (p : Qc) (limits : list Qc) (nsteps : list Z)
  : result axis :=
  if negb (Nat.eqb (length limits) (length nsteps + 1)) then Err ValueError
  else match nsteps with
  | [] => Err NameError
  | _ => let! (lm, st, vs) := seg_loop limits nsteps in
         Ok (Axis (Segments lm nsteps st) vs p)
  end.

(* axis.py:38-49: Axis(params) *)
Definition make_plain (p : Qc) (values : list Qc) : axis := Axis Plain values p.

(* axis.py:588-593 and 596-600 *)
Definition zapscan (start stop : Qc) (npixels : Z) : result axis :=
  if (npixels =? 0)%Z then Err ZeroDivisionError else
  let pixelsize := (stop - start) / Qc_of_Z npixels in
  make_inc 0 (start + pixelsize / Qc_of_Z 2) pixelsize (npixels - 1).
Definition ascan (start stop : Qc) (intervals : Z) : result axis :=
  make_regular 0 start stop intervals.

(* axis.py:165-171, 454-468, 630-636: properties start and end *)
Definition a_start (a : axis) : result Qc :=
  match a_form a with
  | Plain => py_get (a_values a) 0
  | Regular s _ _ _ | RegularInc s _ _ _ | Number s => Ok s
  | Segments lm _ _ => py_get lm 0
  end.
Definition a_end (a : axis) : result Qc :=
  match a_form a with
  | Plain => py_get (a_values a) (-1)
  | Regular _ e _ _ | RegularInc _ e _ _ | Number e => Ok e
  | Segments lm _ _ => py_get lm (-1)
  end.

(* axis.py:173-175, 486-492 *)
Definition a_size (a : axis) : Z :=
  match a_form a with
  | Plain | Segments _ _ _ => Z.of_nat (length (a_values a))
  | Regular _ _ _ n | RegularInc _ _ _ n => n
  | Number _ => 1
  end.

(* axis.py:363-369, 478-484, 669-675: start_stepsize and end_stepsize *)
Definition start_stepsize (a : axis) : result Qc :=
  match a_form a with
  | Plain => let! y := py_get (a_values a) 1 in
             let! x := py_get (a_values a) 0 in Ok (y - x)
  | Regular _ _ d _ | RegularInc _ _ d _ => Ok d
  | Number _ => Ok 0
  | Segments _ _ st => py_get st 0
  end.
Definition end_stepsize (a : axis) : result Qc :=
  match a_form a with
  | Plain => let! y := py_get (a_values a) (-1) in
             let! x := py_get (a_values a) (-2) in Ok (y - x)
  | Regular _ _ d _ | RegularInc _ _ d _ => Ok d
  | Number _ => Ok 0
  | Segments _ _ st => py_get st 1
  end.

(* The setters of the regular axes: axis.py:522-536 (AxisRegular) and 557-571
   (AxisRegularInc); a class that does not override a
   setter inherits the plain attribute assignment of _AxisRegular (458-500). *)
Inductive op : Type :=
| SetStart (v : Qc)
| SetEnd (v : Qc)
| SetStep (v : Qc)
| SetSize (n : Z)
| SetNsteps (n : Z).

Definition apply_op (a : axis) (o : op) : result axis :=
  let p := a_precision a in
  match a_form a with
  | Regular s e d n =>
      match o with
      | SetStart v => make_regular p v e n
      | SetEnd v => make_regular p s v n
      | SetSize m => make_regular p s e (m - 1)
      | SetNsteps m => make_regular p s e m
      | SetStep v => Ok (Axis (Regular s e v n) (a_values a) p)
      end
  | RegularInc s e d n =>
      match o with
      | SetStart v => make_inc p v d n
      | SetStep v => make_inc p s v n
      | SetSize m => make_inc p s d (m - 1)
      | SetNsteps m => make_inc p s d m
      | SetEnd v => Ok (Axis (RegularInc s v d n) (a_values a) p)
      end
  | _ => Err AttributeError
  end.

Fixpoint apply_ops (a : axis) (l : list op) : result axis :=
  match l with
  | [] => Ok a
  | o :: l' => let! a' := apply_op a o in apply_ops a' l'
  end.

(* round() of Python 3: half to even *)
Definition round_even (x : Qc) : Z :=
  let f := Qfloor (this x) in
  let r := x - Qc_of_Z f in
  if Qc_ltb r (Q2Qc (1 # 2)) then f
  else if Qc_ltb (Q2Qc (1 # 2)) r then (f + 1)%Z
  else if Z.even f then f else (f + 1)%Z.

(* axis.py:650-667: the stepsizes setter of AxisSegments, first the number of
   steps of every segment *)
Fixpoint steps_of_sizes (limits st : list Qc) : result (list Z) :=
  match st with
  | [] => Ok []
  | d :: st' =>
      match limits with
      | a :: ((b :: _) as limits') =>
          if Qc_eqb d 0 then Err ZeroDivisionError else
          let n := round_even ((b - a) / d) in
          let! ns := steps_of_sizes limits' st' in Ok (n :: ns)
      | _ => Err IndexError
      end
  end.
(* axis.py:642-644, 650-667, 681-683: the setters of AxisSegments *)
Definition set_limits (a : axis) (limits : list Qc) : result axis :=
  match a_form a with
  | Segments _ ns _ => make_segments (a_precision a) limits ns
  | _ => Err AttributeError
  end.
Definition set_nsteps (a : axis) (ns : list Z) : result axis :=
  match a_form a with
  | Segments lm _ _ => make_segments (a_precision a) lm ns
  | _ => Err AttributeError
  end.
Definition set_stepsizes (a : axis) (st : list Qc) : result axis :=
  match a_form a with
  | Segments lm _ _ =>
      let! ns := steps_of_sizes lm st in make_segments (a_precision a) lm ns
  | _ => Err AttributeError
  end.

(* np.diff *)
Fixpoint diff (l : list Qc) : list Qc :=
  match l with
  | x :: ((y :: _) as l') => (y - x) :: diff l'
  | _ => []
  end.
Fixpoint zdiff (l : list Z) : list Z :=
  match l with
  | x :: ((y :: _) as l') => (y - x)%Z :: zdiff l'
  | _ => []
  end.
(* max() of a sequence, ValueError when empty *)
Fixpoint qmax1 (x : Qc) (l : list Qc) : Qc :=
  match l with
  | [] => x
  | y :: l' => qmax1 (Qc_max x y) l'
  end.
Definition qmax (l : list Qc) : result Qc :=
  match l with [] => Err ValueError | x :: l' => Ok (qmax1 x l') end.
(* np.where(l > p)[0] *)
Fixpoint where_gt (p : Qc) (k : Z) (l : list Qc) : list Z :=
  match l with
  | [] => []
  | x :: l' => if Qc_ltb p x then k :: where_gt p (k + 1) l'
               else where_gt p (k + 1) l'
  end.

(* axis.py:335-361 *)
Definition simplify (a : axis) : result axis :=
  let n := a_size a in
  let p := a_precision a in
  if (n =? 1)%Z then let! s := a_start a in Ok (make_number p s)
  else if (n =? 2)%Z then
    let! s := a_start a in let! e := a_end a in make_regular p s e 1
  else
    let d := map Qc_abs (diff (diff (a_values a))) in
    let! m := qmax d in
    if Qc_leb m p then
      let! s := a_start a in let! e := a_end a in make_regular p s e (n - 1)
    else
      let ind := (0 :: map (fun i => i + 1) (where_gt p 0 d) ++ [n - 1])%Z in
      let nseg := (Z.of_nat (length ind) - 1)%Z in
      if (3 * nseg <? n)%Z then
        let! limits := mapM (py_get (a_values a)) ind in
        make_segments p limits (zdiff ind)
      else Ok a.

(* int(np.ceil(x / stepsize)) of axis.py:391-392: division by a step of zero
   gives an infinity or not a number, which have no integer value *)
Definition steps_to (x step : Qc) : result Z :=
  if Qc_eqb step 0 then
    if Qc_eqb x 0 then Err ValueError else Err OverflowError
  else Ok (Qceiling (this (x / step))).

(* Axis.factory(values) of axis.py:371-375 with default precision, None for an
   empty array: axis.py:397-400 *)
Definition from_values (x : list Qc) : result (option axis) :=
  match x with
  | [] => Ok None
  | _ => let! a := simplify (make_plain 0 x) in Ok (Some a)
  end.

(* axis.py:377-400 *)
Definition newstart (a : axis) (v : Qc) : result (option axis) :=
  let x := a_values a in
  let! step := start_stepsize a in
  let! old := a_start a in
  let! k := steps_to (old - v) step in
  from_values
    (if (0 <? k)%Z then
       map (fun i => old - Qc_of_Z (i + 1) * step) (rev (arange k)) ++ x
     else if (k <? 0)%Z then py_slice x (Some (- k)%Z) None
     else x).

(* axis.py:402-425 *)
Definition newend (a : axis) (v : Qc) : result (option axis) :=
  let x := a_values a in
  let! step := end_stepsize a in
  let! old := a_end a in
  let! k := steps_to (v - old) step in
  from_values
    (if (0 <? k)%Z then
       x ++ map (fun i => old + Qc_of_Z (i + 1) * step) (arange k)
     else if (k <? 0)%Z then py_slice x None (Some k)
     else x).

(* axis.py:427-440 *)
Definition newlimits (a : axis) (v w : Qc) : result (option axis) :=
  let! b := newstart a v in
  match b with
  | None => Ok None
  | Some b => newend b w
  end.

(* Python numbers passed to locate: an integer or a float *)
Inductive num : Type := NInt (z : Z) | NFlt (q : Qc).
Definition num_val (x : num) : Qc :=
  match x with NInt z => Qc_of_Z z | NFlt q => q end.

(* np.argmin: the first position of the smallest element *)
Fixpoint argmin_from (best : Qc) (bi k : Z) (l : list Qc) : Z :=
  match l with
  | [] => bi
  | x :: l' => if Qc_ltb x best then argmin_from x k (k + 1) l'
               else argmin_from best bi (k + 1) l'
  end.
Definition argmin (l : list Qc) : result Z :=
  match l with
  | [] => Err ValueError
  | x :: l' => Ok (argmin_from x 0 1 l')
  end.

(* axis.py:8-12 *)
Definition arg_closest_num (arr : list Qc) (v : num) (isindex : num -> bool)
  : result Z :=
  match v with
  | NInt z => if isindex v then Ok z
              else argmin (map (fun x => Qc_abs (x - num_val v)) arr)
  | NFlt q => argmin (map (fun x => Qc_abs (x - num_val v)) arr)
  end.

(* axis.py:15-27: difflib's similarity ratios of the axis strings to the value
   are the argument *)
Fixpoint closest_ratio_from (best : Qc) (bi k : Z) (l : list Qc) : Z :=
  match l with
  | [] => bi
  | r :: l' => if Qc_ltb best r then closest_ratio_from r k (k + 1) l'
               else closest_ratio_from best bi (k + 1) l'
  end.
Definition arg_closest_string (ratios : list Qc) : Z :=
  closest_ratio_from 0 0 0 ratios.

(* axis.py:30-34: list.index *)
Fixpoint index_from {A} (eqb : A -> A -> bool) (v : A) (k : Z) (l : list A)
  : result Z :=
  match l with
  | [] => Err ValueError
  | x :: l' => if eqb x v then Ok k else index_from eqb v (k + 1) l'
  end.
Definition arg_index {A} (eqb : A -> A -> bool) (arr : list A) (v : A) :=
  index_from eqb v 0 arr.

Inductive target : Type :=
| TNone                    (* None *)
| TOne (v : num)           (* a number *)
| TMany (l : list num).    (* an array *)
Inductive location : Type :=
| LAll                     (* slice(None) *)
| LOne (i : Z)
| LMany (l : list Z).

(* axis.py:239-291 for a quantitative axis; axis_int says whether the
   magnitudes of the axis have an integer data type *)
Definition locate (axis_int : bool) (arr : list Qc) (t : target)
  (detectindex : bool) : result location :=
  match t with
  | TNone => Ok LAll
  | _ =>
    let! isindex :=
      (if detectindex then
         let! _ := py_get arr 0 in
         Ok (fun v => axis_int && match v with NInt _ => true | NFlt _ => false end)
       else Ok (fun _ => false)) in
    match t with
    | TMany l =>
        let! _ := py_get l 0 in        (* isstring(xnew[0]) *)
        let! _ := py_get arr 0 in      (* isstring(xold[0]) *)
        let! r := mapM (fun v => arg_closest_num arr v isindex) l in
        Ok (LMany r)
    | TOne v => let! i := arg_closest_num arr v isindex in Ok (LOne i)
    | TNone => Ok LAll
    end
  end.

(* axis.py:205-226: comparison of two axes; None is not a number *)
Definition is_nan (x : option Qc) : bool :=
  match x with None => true | Some _ => false end.
Definition absdiff (xy : option Qc * option Qc) : list Qc :=
  match xy with (Some x, Some y) => [Qc_abs (x - y)] | _ => [] end.
Definition axis_eq (precision : Qc) (v w : list (option Qc)) : result bool :=
  if negb (Nat.eqb (length v) (length w)) then Ok false
  else if negb (forallb (fun xy => Bool.eqb (is_nan (fst xy)) (is_nan (snd xy)))
                        (combine v w)) then Ok false
  else if forallb is_nan v then Ok true
  else let! m := qmax (flat_map absdiff (combine v w)) in
       Ok (Qc_leb m precision).

(* axis.py:293-308: old and new coordinates for an interpolation on a
   quantitative axis (without nan); a decreasing axis is mirrored *)
Definition interpolate (arr : list Qc) (new : option (list Qc))
  : result (list Qc * list Qc) :=
  let! x1 := py_get arr 1 in
  let! x0 := py_get arr 0 in
  let! (xo, xn) :=
    (if Qc_ltb x1 x0 then
       let! m := qmax arr in
       Ok (map (fun x => m - x) arr,
           match new with None => None | Some l => Some (map (fun x => m - x) l) end)
     else Ok (arr, new)) in
  match xn with
  | None => Ok (xo, xo)
  | Some l => Ok (xo, l)
  end.
