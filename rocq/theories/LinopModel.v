(* Model of src/spectrocrunch/math/linop.py on dimensionless scalars (arrays are
   treated element by element by the code).  Numbers are exact; signed zeros are
   not distinguished. *)
From Verif Require Export Base QcTac.
From Coq Require String.

(* IEEE-like numbers *)
Inductive num : Type := Fin (q : Qc) | PInf | NInf | NaN.

Local Open Scope Qc_scope.
Definition n_opp (a : num) : num :=
  match a with Fin q => Fin (- q) | PInf => NInf | NInf => PInf | NaN => NaN end.
Definition n_add (a b : num) : num :=
  match a, b with
  | NaN, _ | _, NaN => NaN
  | Fin p, Fin q => Fin (p + q)
  | PInf, NInf | NInf, PInf => NaN
  | PInf, _ | _, PInf => PInf
  | NInf, _ | _, NInf => NInf
  end.
Definition n_sub (a b : num) : num := n_add a (n_opp b).
(* an infinity with the sign of q *)
Definition inf_sign (q : Qc) (a : num) : num :=
  if Qc_eqb q 0 then NaN else if Qc_ltb 0 q then a else n_opp a.
Definition n_mul (a b : num) : num :=
  match a, b with
  | NaN, _ | _, NaN => NaN
  | Fin p, Fin q => Fin (p * q)
  | Fin p, c => inf_sign p c
  | c, Fin p => inf_sign p c
  | PInf, PInf | NInf, NInf => PInf
  | _, _ => NInf
  end.
Definition n_div (a b : num) : num :=
  match a, b with
  | NaN, _ | _, NaN => NaN
  | Fin p, Fin q => if Qc_eqb q 0 then inf_sign p PInf else Fin (p / q)
  | Fin _, _ => Fin 0
  | c, Fin q => if Qc_eqb q 0 then c else inf_sign q c
  | _, _ => NaN
  end.
(* a < b *)
Definition n_ltb (a b : num) : bool :=
  match a, b with
  | NaN, _ | _, NaN => false
  | Fin p, Fin q => Qc_ltb p q
  | NInf, NInf => false
  | NInf, _ => true
  | _, PInf => match a with PInf => false | _ => true end
  | _, _ => false
  end.
Definition n_leb (a b : num) : bool :=
  match a, b with
  | NaN, _ | _, NaN => false
  | _, _ => negb (n_ltb b a)
  end.
Definition is_nan (a : num) : bool := match a with NaN => true | _ => false end.

(* The operator classes.  Lambda carries its name, inverse name, function and
   inverse function (128-131). *)
Inductive kind : Type :=
| Identity
| Lambda (name iname : String.string) (f g : num -> num)
| Clip (cmin cmax : option num)
| NaNClip (cmin cmax : option num)
| Linear (m b : num).

(* An operator with the operators on its right (_opright), outermost first. *)
Definition oper : Type := list kind.

(* math/linop.py:195-198 _valid_limit *)
Definition valid_limit (c : option num) : bool :=
  match c with None => false | Some c => negb (is_nan c) end.
(* self.cmin <= self.cmax with TypeError caught (lines 203-206) *)
Definition self_le (cmin cmax : option num) : bool :=
  match cmin, cmax with Some a, Some b => n_leb a b | _, _ => false end.
(* math/linop.py:200-209 _valid_limits: the first result compares the limits of
   self, not the arguments *)
Definition valid_limits (self_min self_max cmin cmax : option num) : bool :=
  if valid_limit cmin && valid_limit cmax then self_le self_min self_max else true.

(* y[y < cmin] = v, y[y > cmax] = v *)
Definition set_below (c : option num) (v : num) (y : num) : num :=
  match c with Some c => if valid_limit (Some c) && n_ltb y c then v else y | None => y end.
Definition set_above (c : option num) (v : num) (y : num) : num :=
  match c with Some c => if valid_limit (Some c) && n_ltb c y then v else y | None => y end.
Definition limit (c : option num) : num := match c with Some c => c | None => NaN end.

(* _eval of each class: Identity 119, Lambda 136, Clip 263-277, NaNClip 296-304,
   LinearOperator 342-343 *)
Definition eval1 (k : kind) (x : num) : num :=
  match k with
  | Identity => x
  | Lambda _ _ f _ => f x
  | Clip cmin cmax =>
      if valid_limits cmin cmax cmin cmax
      then set_above cmax (limit cmax) (set_below cmin (limit cmin) x)
      else NaN
  | NaNClip cmin cmax => set_above cmax NaN (set_below cmin NaN x)
  | Linear m b => n_add (n_mul m x) b
  end.
(* math/linop.py:69-72 __call__ *)
Fixpoint eval (o : oper) (x : num) : num :=
  match o with [] => x | k :: o' => eval1 k (eval o' x) end.

(* math/linop.py:179-193 _commute_linop: the limits after exchanging with m*x+b *)
Definition commute (m b : num) (cmin cmax : option num) : option num * option num :=
  let f c := if valid_limit c then option_map (fun c => n_div (n_sub c b) m) c else None in
  if n_ltb m (Fin 0) then (f cmax, f cmin) else (f cmin, f cmax).

Definition opt_ltb (a b : option num) : bool :=
  match a, b with Some a, Some b => n_ltb a b | _, _ => false end.
(* python's max(a, b) and min(a, b) on comparable numbers *)
Definition n_max (a b : option num) : option num :=
  match a, b with Some x, Some y => if n_ltb x y then b else a | _, _ => a end.
Definition n_min (a b : option num) : option num :=
  match a, b with Some x, Some y => if n_ltb y x then b else a | _, _ => a end.

(* math/linop.py:211-245 ClipOperator.__mul__: the merged limits, None when the
   operators are not combined *)
Definition merge_limits (smin smax rmin rmax : option num) : option (option num * option num) :=
  let vs := valid_limits smin smax smin smax in
  let vr := valid_limits smin smax rmin rmax in
  if negb vs || negb vr
     || (valid_limit smax && valid_limit rmin && opt_ltb smax rmin)
     || (valid_limit rmax && valid_limit smin && opt_ltb rmax smin)
  then None
  else
    let cmin := if valid_limit rmin then (if valid_limit smin then n_max smin rmin else rmin) else smin in
    let cmax := if valid_limit rmax then (if valid_limit smax then n_min smax rmax else rmax) else smax in
    Some (cmin, cmax).

(* __mul__ of an operator without _opright: Operator 46-58, Identity 113-117,
   CommutativeOperator 149-157, ClipOperator 211-245, LinearOperator 345-353 *)
Fixpoint mul1 (k : kind) (r : oper) : oper :=
  match k with
  | Identity => match r with [] => [Identity] | _ => r end
  | Clip cmin cmax =>
      match r with
      | [] | Identity :: _ => [k]
      | Linear m b :: r' =>
          let (c1, c2) := commute m b cmin cmax in Linear m b :: mul1 (Clip c1 c2) r'
      | Clip rmin rmax :: r' =>
          match merge_limits cmin cmax rmin rmax with
          | Some (c1, c2) => Clip c1 c2 :: r'
          | None => k :: r
          end
      | _ => k :: r
      end
  | NaNClip cmin cmax =>
      match r with
      | [] | Identity :: _ => [k]
      | Linear m b :: r' =>
          let (c1, c2) := commute m b cmin cmax in Linear m b :: mul1 (NaNClip c1 c2) r'
      | NaNClip rmin rmax :: r' =>
          match merge_limits cmin cmax rmin rmax with
          | Some (c1, c2) => NaNClip c1 c2 :: r'
          | None => k :: r
          end
      | _ => k :: r
      end
  | Linear m b =>
      match r with
      | [] | Identity :: _ => [k]
      | Linear rm rb :: r' => Linear (n_mul m rm) (n_add (n_mul rb m) b) :: r'
      | _ => k :: r
      end
  | Lambda _ _ _ _ => match r with [] | Identity :: _ => [k] | _ => k :: r end
  end.
(* left * right; [] stands for None *)
Fixpoint mul (l r : oper) : oper :=
  match l with
  | [] => r
  | [k] => mul1 k r
  | k :: l' => match r with [] | Identity :: _ => l | _ => k :: mul l' r end
  end.

(* _inverse of each class and LinearOperator.inverse (370-378) *)
Definition inverse1 (k : kind) : kind :=
  match k with
  | Identity => Identity
  | Lambda n i f g => Lambda i n g f
  | Clip cmin cmax | NaNClip cmin cmax => NaNClip cmin cmax
  | Linear m b => Linear (n_div (Fin 1) m) (n_div (n_opp b) m)
  end.
(* math/linop.py:77-82 inverse *)
Fixpoint inverse (o : oper) : oper :=
  match o with
  | [] => []
  | [k] => [inverse1 k]
  | k :: o' => mul (inverse o') [inverse1 k]
  end.

(* math/linop.py:355-368 LinearOperator.__pow__ (the operators on the right are
   ignored); NotImplementedError for negative powers *)
Fixpoint times (n : nat) (ret : oper) (k : kind) : oper :=
  match n with O => ret | S n' => times n' (mul ret [k]) k end.
Definition pow (o : oper) (p : Z) : result oper :=
  match o with
  | Linear m b :: _ =>
      if (p <? 0)%Z then Err NotImplementedError
      else if (p =? 0)%Z then Ok [Linear (Fin 0) (Fin 1)]
      else Ok (times (Z.to_nat p - 1) [Linear m b] (Linear m b))
  | _ => Err TypeError
  end.

(* a == b *)
Definition n_eqb (a b : num) : bool :=
  match a, b with
  | Fin p, Fin q => Qc_eqb p q
  | PInf, PInf | NInf, NInf => true
  | _, _ => false
  end.
Definition opt_n_eqb (a b : option num) : bool :=
  match a, b with
  | Some a, Some b => n_eqb a b
  | None, None => true
  | _, _ => false
  end.
(* math/linop.py:88-94 Operator.__eq__ (with _attr_eq of ClipOperator 170-171 and
   LinearOperator 333-338): the operators on the right are not compared *)
Definition op_eqb (l r : oper) : bool :=
  match l, r with
  | Identity :: _, Identity :: _ => true
  | Lambda n _ _ _ :: _, Lambda n' _ _ _ :: _ => String.eqb n n'
  | Clip a b :: _, Clip c d :: _ => opt_n_eqb a c && opt_n_eqb b d
  | NaNClip a b :: _, NaNClip c d :: _ => opt_n_eqb a c && opt_n_eqb b d
  | Linear m b :: _, Linear m' b' :: _ => n_eqb m m' && n_eqb b b'
  | _, _ => false
  end.
Close Scope Qc_scope.
