(* Model of src/spectrocrunch/process/nxresult.py 7-72 (Group) with the comparisons of
   src/spectrocrunch/utils/comparable.py and utils/hashable.py.
   Numbers are integers (a float makes "{:02d}" raise, which is not modelled); text is ASCII. *)
From Coq Require Import String.
From Verif Require Export Base Text.
From Verif Require ProcModel.
Close Scope string_scope.
Local Open Scope nat_scope.
Local Notation s := list_ascii_of_string.

Record grp : Type := mkGrp { g_name : chars; g_number : Z; g_category : Z }.
Inductive ginput : Type :=
| GNum (n : Z)
| GStr (t : chars)
| GGrp (g : grp)
| GFalse                         (* None and other things that are false *)
| GOther.                        (* anything else *)

(* str.startswith(p), followed by t[len(p):] *)
Definition strip (p t : chars) : chars := match starts p t with Some r => r | None => t end.
(* str.isdigit *)
Definition isdigit (t : chars) : bool := match t with [] => false | _ => forallb digit t end.
(* p in t *)
Fixpoint contains (p t : chars) : bool :=
  match starts p t with
  | Some _ => true
  | None => match t with [] => false | _ :: t' => contains p t' end
  end.

(* int(text): white space around it, a sign, digits with single underscores between them *)
Definition blank (c : ascii) : bool :=
  let n := nat_of_ascii c in (n =? 32) || ((9 <=? n) && (n <=? 13)) || ((28 <=? n) && (n <=? 31)).
Fixpoint lstrip (t : chars) : chars :=
  match t with c :: t' => if blank c then lstrip t' else t | [] => [] end.
Definition strip_blank (t : chars) : chars := rev (lstrip (rev (lstrip t))).
(* after: the previous character was a digit *)
Fixpoint int_digits (after : bool) (v : Z) (t : chars) : result Z :=
  match t with
  | [] => if after then Ok v else Err ValueError
  | c :: t' =>
      if digit c then int_digits true (10 * v + digit_val c)%Z t'
      else if ascii_eqb c (ch 95) && after then int_digits false v t'
      else Err ValueError
  end.
Definition py_int (t : chars) : result Z :=
  match strip_blank t with
  | c :: t' =>
      if ascii_eqb c (ch 45) then let! v := int_digits false 0%Z t' in Ok (- v)%Z
      else if ascii_eqb c (ch 43) then int_digits false 0%Z t'
      else int_digits false 0%Z (c :: t')
  | [] => Err ValueError
  end.

(* 10-49 *)
Definition make (i : ginput) : result grp :=
  match i with
  | GNum n => Ok (mkGrp (s "detector" ++ format_int 2 n) n 0)
  | GStr t0 =>
      let t := strip (s "detector") (strip (s "xia") t0) in
      if isdigit t then Ok (mkGrp (s "detector" ++ format_int 2 (int_of t)) (int_of t) 0)
      else
        match starts (s "S") t with
        | Some r => let! n := py_int r in Ok (mkGrp (s "detectorS" ++ format_int 1 n) n 1)
        | None =>
            if contains (s "parameters") t || contains (s "concentrations") t then Ok (mkGrp t (-1) 0)
            else match t with
                 | [] => Ok (mkGrp (s "counters") (-1) (-1))
                 | _ => Ok (mkGrp t (-1) (-1))
                 end
        end
  | GGrp g => Ok (mkGrp (g_name g) (g_number g) (g_category g))
  | GFalse => Ok (mkGrp (s "counters") (-1) (-1))
  | GOther => Err ValueError
  end.
(* 51-72 *)
Definition isdetector (g : grp) : bool := (0 <=? g_category g)%Z.
Definition issum (g : grp) : bool := (g_category g =? 1)%Z.
Definition issingle (g : grp) : bool := (g_category g =? 0)%Z.
Definition xialabel (g : grp) : option chars :=
  if issingle g then Some (s "xia" ++ format_int 2 (g_number g))
  else if issum g then Some (s "xiaS" ++ str_int (g_number g))
  else None.

(* utils/comparable.py 5-60 *)
Inductive operand : Type := OGrp (g : grp) | OText (t : chars) | OThing.
(* what is compared: text, a bound method, or something else *)
Inductive value : Type := VText (t : chars) | VMethod (g : grp) | VThing.
(* 10-11: the representation, which is the name *)
Definition cmpkey (g : grp) : value := VText (g_name g).
(* 13-14: the method itself, it is not called *)
Definition sortkey (g : grp) : value := VMethod g.
(* 25-33: text and other things have no key and are compared with the key of the group *)
Definition compareop {A} (key : grp -> value) (op : value -> value -> A) (a : grp) (b : operand) : A :=
  op (key a) (match b with OGrp b => key b | OText t => VText t | OThing => VThing end).
(* operator.eq: methods are equal when they are of the same object, which is not modelled: no
   comparison below compares two of them for equality *)
Definition op_eq (a b : value) : bool :=
  match a, b with VText x, VText y => chars_eqb x y | _, _ => false end.
(* operator.lt (Python 3): text is ordered, methods are not *)
Definition op_lt (a b : value) : result bool :=
  match a, b with VText x, VText y => Ok (ProcModel.chars_ltb x y) | _, _ => Err TypeError end.
Definition op_le (a b : value) : result bool :=
  match a, b with VText x, VText y => Ok (negb (ProcModel.chars_ltb y x)) | _, _ => Err TypeError end.
Definition eq_op : grp -> operand -> bool := compareop cmpkey op_eq.
Definition ne_op (a : grp) (b : operand) : bool := negb (eq_op a b).
Definition lt_op : grp -> operand -> result bool := compareop sortkey op_lt.
Definition le_op : grp -> operand -> result bool := compareop sortkey op_le.
Definition gt_op : grp -> operand -> result bool := compareop sortkey (fun x y => op_lt y x).
Definition ge_op : grp -> operand -> result bool := compareop sortkey (fun x y => op_le y x).
(* utils/hashable.py 9-10 *)
Definition hash_key (g : grp) : chars := g_name g.
