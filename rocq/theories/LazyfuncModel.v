(* Model of src/spectrocrunch/math/lazy.py: Function with Python's dispatch of operators.
   V are the values that are not lazy; binary and unary are Python's operators on them, show is str.  The operators of
   these values do not know Function (they return NotImplemented), which excludes numpy arrays on the left.
   Args are the positional and keyword arguments of a call. *)
From Verif Require Import Base.
From Coq Require Import String.
Local Open Scope string_scope.

(* the operators of Python that Function overloads *)
Inductive binop : Type :=
  Mul | Truediv | Floordiv | Modulo | Divmod | Add | Sub | Pow | Lt | Le | Gt | Ge | Eq_ | Ne | And_ | Or_.
Inductive unop : Type := Neg | Pos | Abs | Not.

Section Lazy.
Variables V Args : Type.
Variable binary : binop -> V -> V -> result V.
Variable unary : unop -> V -> result V.
Variable show : V -> string.
Variable false_ : V.               (* the object False *)

(* an object: a value or a lazy function with its name *)
Inductive obj : Type := Val (v : V) | Fun (f : Args -> result V) (name : string).

(* 13-20: str and call; what a value gives in the place of a call (27-45) is the value itself *)
Definition str (o : obj) : string := match o with Val v => show v | Fun _ name => name end.
Definition called (o : obj) (args : Args) : result V := match o with Val v => Ok v | Fun f _ => f args end.
(* 22-50 _binary_op *)
Definition binary_op (a b : obj) (op : binop) (symb1 : string) (symb2 : option string) : obj :=
  let f := fun args => let! x := called a args in let! y := called b args in binary op x y in
  match symb2 with
  | Some s => Fun f (symb1 ++ str a ++ "," ++ str b ++ s)
  | None => Fun f ("(" ++ str a ++ symb1 ++ str b ++ ")")
  end.
(* 52-69 _unitary_op *)
Definition unitary_op (a : obj) (op : unop) (symb1 : string) (symb2 : option string) : obj :=
  let f := fun args => let! x := called a args in unary op x in
  match symb2 with
  | Some s => Fun f (symb1 ++ str a ++ s)
  | None => Fun f ("(" ++ symb1 ++ str a ++ ")")
  end.

(* 71-99, 125-147: the methods with the lazy function on the left.  The module operator has no attribute divmod. *)
Definition left_method (op : binop) (self other : obj) : result obj :=
  match op with
  | Mul => Ok (binary_op self other Mul "*" None)
  | Truediv => Ok (binary_op self other Truediv "/" None)
  | Floordiv => Ok (binary_op self other Floordiv "//" None)
  | Modulo => Ok (binary_op self other Modulo "%" None)
  | Divmod => Err AttributeError
  | Add => Ok (binary_op self other Add "+" None)
  | Sub => Ok (binary_op self other Sub "-" None)
  | Pow => Ok (binary_op self other Pow "^" None)
  | Lt => Ok (binary_op self other Lt "<" None)
  | Le => Ok (binary_op self other Le "<=" None)
  | Gt => Ok (binary_op self other Gt ">" None)
  | Ge => Ok (binary_op self other Ge ">=" None)
  | Eq_ => Ok (binary_op self other Eq_ "==" None)
  | Ne => Ok (binary_op self other Ne "!=" None)
  | And_ => Ok (binary_op self other And_ " and " None)
  | Or_ => Ok (binary_op self other Or_ " or " None)
  end.
(* 101-123: the reflected methods, with the value on the left.  A comparison is reflected to the opposite one (Python's
   data model); there is no __rand__ and no __ror__. *)
Definition right_method (op : binop) (self other : obj) : result obj :=
  match op with
  | Mul => Ok (binary_op other self Mul "*" None)
  | Truediv => Ok (binary_op other self Truediv "/" None)
  | Floordiv => Ok (binary_op other self Floordiv "//" None)
  | Modulo => Ok (binary_op other self Modulo "%" None)
  | Divmod => Ok (binary_op other self Modulo "divmod(" (Some ")"))
  | Add => Ok (binary_op other self Add "+" None)
  | Sub => Ok (binary_op other self Sub "-" None)
  | Pow => Ok (binary_op other self Pow "^" None)
  | Lt => left_method Gt self other
  | Le => left_method Ge self other
  | Gt => left_method Lt self other
  | Ge => left_method Le self other
  | Eq_ => left_method Eq_ self other
  | Ne => left_method Ne self other
  | And_ | Or_ => Err TypeError
  end.
(* Python's "a op b" *)
Definition operate (op : binop) (a b : obj) : result obj :=
  match a, b with
  | Val x, Val y => let! z := binary op x y in Ok (Val z)
  | Fun _ _, _ => left_method op a b
  | Val _, Fun _ _ => right_method op b a
  end.
(* Python's "op a": 152-159; the method __not__ of 149-150 is not used by "not", which takes the truth of the object *)
Definition operate1 (op : unop) (a : obj) : result obj :=
  match a with
  | Val x => let! z := unary op x in Ok (Val z)
  | Fun _ _ =>
      match op with
      | Neg => Ok (unitary_op a Neg "-" None)
      | Pos => Ok (unitary_op a Pos "+" None)
      | Abs => Ok (unitary_op a Abs "abs(" (Some ")"))
      | Not => Ok (Val false_)
      end
  end.

(* a Python expression of these operators; operands are evaluated from left to right *)
Inductive expression : Type :=
  | Leaf (o : obj)
  | Bin (op : binop) (a b : expression)
  | Un (op : unop) (a : expression).
Fixpoint build (x : expression) : result obj :=
  match x with
  | Leaf o => Ok o
  | Bin op a b => let! u := build a in let! v := build b in operate op u v
  | Un op a => let! u := build a in operate1 op u
  end.
End Lazy.
Arguments Val {V Args}. Arguments Fun {V Args}. Arguments Leaf {V Args}. Arguments Bin {V Args}. Arguments Un {V Args}.
