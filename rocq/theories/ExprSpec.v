(* Vocabulary for the statements about process/nxexpression.py: expression trees, how they are
   written and what they mean. *)
From Coq Require Import String.
From Verif Require Import ExprModel.
Close Scope string_scope.
Local Open Scope nat_scope.

Inductive binop : Type := Add | Sub | Mul | Div | Pow.
Inductive tree : Type :=
| Num (mantissa : chars) (exponent : option (ascii * chars))   (* 12, 1.5, 3.e-2 *)
| Pi | Eu
| Var (x : chars)
| Fun (f : chars) (a : tree)
| Neg (a : tree) | Pos (a : tree)
| Bin (o : binop) (a b : tree).

(* ---- writing ---- *)
Definition symbol (o : binop) : ascii := ch (match o with Add => 43 | Sub => 45 | Mul => 42 | Div => 47 | Pow => 94 end).
(* sums 0, products 1, powers 2, the rest 3 *)
Definition level (e : tree) : nat :=
  match e with
  | Bin (Add | Sub) _ _ => 0
  | Bin (Mul | Div) _ _ => 1
  | Bin Pow _ _ => 2
  | _ => 3
  end.
Definition simple (e : tree) : bool := match e with Num _ _ | Pi | Eu | Var _ | Fun _ _ => true | _ => false end.
(* sums and products group from the left, powers from the right; a sign belongs to the operand that
   directly follows; operands in need of them are put between brackets *)
Definition bracket (b : bool) (l : list chars) : list chars := if b then txt "(" :: l ++ [txt ")"] else l.
Section Writing.
Variable spell : chars -> chars.                              (* how a variable is written *)
Fixpoint body (e : tree) : list chars :=
  match e with
  | Num m None => [m]
  | Num m (Some (c, x)) => [m ++ c :: x]
  | Pi => [txt "pi"]
  | Eu => [txt "e"]
  | Var x => [spell x]
  | Fun f a => f :: bracket true (body a)
  | Neg a => txt "-" :: bracket (negb (simple a)) (body a)
  | Pos a => txt "+" :: bracket (negb (simple a)) (body a)
  | Bin o a b =>
      let l := level e in
      match o with
      | Pow => bracket (level a <=? l) (body a) ++ [[symbol o]] ++ bracket (level b <? l) (body b)
      | _ => bracket (level a <? l) (body a) ++ [[symbol o]] ++ bracket (level b <=? l) (body b)
      end
  end.
End Writing.
(* the tokens of a text: any white space before each of them and at the end *)
(* blank, newline, tab and carriage return *)
Definition blank (c : ascii) : Prop := c = ch 32 \/ c = ch 10 \/ c = ch 9 \/ c = ch 13.
Definition spaces (w : chars) : Prop := Forall blank w.
Inductive written : list chars -> chars -> Prop :=
| written_nil : forall w, spaces w -> written [] w
| written_cons : forall w tok toks t, spaces w -> written toks t -> written (tok :: toks) (w ++ tok ++ t).

(* ---- well-formed trees ---- *)
Definition digits_of (l : chars) : Prop := Forall (fun c => digit c = true) l.
Definition mantissa_ok (m : chars) : Prop :=
  exists a b, a <> [] /\ digits_of a /\ digits_of b /\ (m = a \/ m = a ++ ch 46 :: b).
Definition exponent_ok (x : option (ascii * chars)) : Prop :=
  match x with
  | None => True
  | Some (c, t) => (c = ch 101 \/ c = ch 69) /\ exists s d, (s = [] \/ s = [ch 43] \/ s = [ch 45]) /\ d <> [] /\ digits_of d /\ t = s ++ d
  end.
Definition function (f : chars) : Prop :=
  In f (map txt ["nanone"; "nanzero"; "sin"; "cos"; "tan"; "abs"; "trunc"; "round"; "sgn"; "max"; "min"; "mean"; "median"; "ln"; "sobel"]%string).
Fixpoint wf (okvar : chars -> Prop) (e : tree) : Prop :=
  match e with
  | Num m x => mantissa_ok m /\ exponent_ok x
  | Pi | Eu => True
  | Var x => okvar x
  | Fun f a => function f /\ wf okvar a
  | Neg a | Pos a => wf okvar a
  | Bin _ a b => wf okvar a /\ wf okvar b
  end.
(* names in the text to evaluate: letters *)
Definition name_ok (x : chars) : Prop := x <> [] /\ Forall (fun c => letter c = true) x.
(* names that mean something else *)
Definition reserved (x : chars) : Prop := map upper x = txt "PI" \/ map upper x = txt "E" \/ function x.
(* names in a template *)
Definition field_ok (x : chars) : Prop := Forall (fun c => c <> lbrace /\ c <> rbrace /\ c <> newline) x.
Fixpoint variables (e : tree) : list chars :=
  match e with
  | Var x => [x]
  | Fun _ a | Neg a | Pos a => variables a
  | Bin _ a b => variables a ++ variables b
  | _ => []
  end.
(* nanone and nanzero are not applied to a variable itself *)
Fixpoint bare (e : tree) : bool :=
  match e with Var _ => true | Pos a => bare a | Fun f a => (chars_eqb f nanone || chars_eqb f nanzero) && bare a | _ => false end.
Fixpoint no_bare (e : tree) : Prop :=
  match e with
  | Fun f a => (f = nanone \/ f = nanzero -> bare a = false) /\ no_bare a
  | Neg a | Pos a => no_bare a
  | Bin _ a b => no_bare a /\ no_bare b
  | _ => True
  end.

(* ---- meaning ---- *)
Definition defined {V} (r : result V) : option V := match r with Ok v => Some v | Err _ => None end.
Definition apply1 {V} (f : V -> result V) (a : option V) : option V := match a with Some v => defined (f v) | None => None end.
Definition apply2 {V} (f : V -> V -> result V) (a b : option V) : option V :=
  match a, b with Some v, Some w => defined (f v w) | _, _ => None end.
Section Meaning.
Context {V : Type} (A : alg V) (val : chars -> option V).
Definition operation (o : binop) : V -> V -> result V :=
  match o with Add => v_add A | Sub => v_sub A | Mul => v_mul A | Div => v_div A | Pow => v_pow A end.
Definition apply_function (f : chars) : V -> result V :=
  if chars_eqb f nanone then v_nan A true else if chars_eqb f nanzero then v_nan A false else v_fn A f.
Fixpoint meaning (e : tree) : option V :=
  match e with
  | Num m None => defined (v_num A m)
  | Num m (Some (_, x)) => defined (v_num A (m ++ ch 69 :: x))
  | Pi => Some (v_pi A)
  | Eu => Some (v_e A)
  | Var x => val x
  | Fun f a => apply1 (apply_function f) (meaning a)
  | Neg a => apply1 (v_neg A) (meaning a)
  | Pos a => meaning a
  | Bin o a b => apply2 (operation o) (meaning a) (meaning b)
  end.
End Meaning.
(* the outcome of a computation is this value, or an error when there is none *)
Definition yields {V} (r : result V) (v : option V) : Prop :=
  match v with Some x => r = Ok x | None => exists e, r = Err e end.

(* ---- an arithmetic to calculate with in examples: whole numbers, None is not-a-number ---- *)
Definition digits_value (t : chars) : result (option Z) :=
  fold_left (fun acc c =>
    let! v := acc in
    match v with
    | Some n => if digit c then Ok (Some (10 * n + Z.of_nat (nat_of_ascii c - 48))%Z) else Err ValueError
    | None => Err ValueError
    end) t (Ok (Some 0%Z)).
Definition lift2 (f : Z -> Z -> Z) (a b : option Z) : result (option Z) :=
  Ok (match a, b with Some x, Some y => Some (f x y) | _, _ => None end).
Definition whole : alg (option Z) :=
  mkAlg (option Z) (lift2 Z.add) (lift2 Z.sub) (lift2 Z.mul)
    (fun a b => match b with Some 0%Z => Err ZeroDivisionError | _ => lift2 Z.div a b end) (lift2 Z.pow)
    (fun a => Ok (option_map Z.opp a)) (Some 3%Z) (Some 2%Z) (Some 0%Z) digits_value
    (fun f a => if chars_eqb f (txt "abs") then Ok (option_map Z.abs a) else Err NotImplementedError)
    (fun one a => Ok (match a with None => Some (if (one : bool) then 1 else 0)%Z | _ => a end)).
