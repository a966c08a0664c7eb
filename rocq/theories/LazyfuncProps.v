(* C99: lazy functions (math/lazy.py) *)
From Verif Require Import Base LazyfuncModel LazyfuncSpec LazyfuncProofs.
From Coq Require Import String Lia.
Local Open Scope string_scope. Local Open Scope list_scope. Local Open Scope Z_scope.

(* the operators on integers that the examples use *)
Definition zbinary (op : binop) (x y : Z) : result Z :=
  match op with
  | Mul => Ok (x * y) | Add => Ok (x + y) | Sub => Ok (x - y)
  | Floordiv => if y =? 0 then Err ZeroDivisionError else Ok (x / y)
  | Modulo => if y =? 0 then Err ZeroDivisionError else Ok (x mod y)
  | Lt => Ok (Z.b2z (x <? y)) | Gt => Ok (Z.b2z (y <? x)) | Le => Ok (Z.b2z (x <=? y)) | Ge => Ok (Z.b2z (y <=? x))
  | Eq_ => Ok (Z.b2z (x =? y)) | Ne => Ok (Z.b2z (negb (x =? y)))
  | _ => Err NotImplementedError
  end.
Definition zunary (op : unop) (x : Z) : result Z :=
  match op with Neg => Ok (- x) | Pos => Ok x | Abs => Ok (Z.abs x) | Not => Ok (Z.b2z (x =? 0)) end.
Definition zshow (x : Z) : string := if x =? 2 then "2" else "?".

(* calling a lazy expression gives the value of the expression of the called functions, also when it fails *)
Theorem C99_called_partial V Args binary unary show (false_ : V) (x : expression V Args) o args :
  build V Args binary unary show false_ x = Ok o -> supported x = true -> mirrored binary ->
  called V Args o args = value binary unary args x.
Proof. exact (build_lazy V Args binary unary show false_ x o args). Qed.
Print Assumptions C99_called_partial.
Example C99_called_example :
  let f := Leaf (Fun (fun a : Z => Ok (3 * a)) "f") in
  let g := Leaf (Fun (fun a => if a =? 0 then Err ValueError else Ok (a - 1)) "g") in
  let x := Bin Lt (Leaf (Val 2)) (Bin Add (Bin Mul f (Un Neg g)) (Bin Floordiv (Leaf (Val 2)) g)) in
  mirrored zbinary /\ supported x = true /\ lazy x = true /\
  value zbinary zunary 1 x = Err ZeroDivisionError /\ value zbinary zunary 0 x = Err ValueError /\ value zbinary zunary (-1) x = Ok 0 /\
  exists h, build Z Z zbinary zunary zshow 0 x = Ok (Fun h "(((f*(-g))+(2//g))>2)") /\ h (-1) = Ok 0.
Proof.
  cbv zeta. split; [|repeat split; eexists; split; reflexivity].
  intros op op' u v H. destruct op; try discriminate; injection H as <-; cbn; try reflexivity; rewrite Z.eqb_sym; reflexivity.
Qed.

(* whether the result is lazy, and expressions without lazy functions are computed at once *)
Theorem C99_lazy V Args binary unary show (false_ : V) (x : expression V Args) o :
  build V Args binary unary show false_ x = Ok o -> supported x = true ->
  (match o with Fun _ _ => true | Val _ => false end) = lazy x.
Proof. exact (build_isfun V Args binary unary show false_ x o). Qed.
Print Assumptions C99_lazy.
Theorem C99_eager V Args binary unary show (false_ : V) (x : expression V Args) args : lazy x = false ->
  build V Args binary unary show false_ x = (let! v := value binary unary args x in Ok (Val v)).
Proof. exact (build_eager V Args binary unary show false_ x args). Qed.
Print Assumptions C99_eager.
(* a supported expression that cannot be built has no value for any arguments *)
Theorem C99_fails V Args binary unary show (false_ : V) (x : expression V Args) e args :
  supported x = true -> build V Args binary unary show false_ x = Err e -> mirrored binary ->
  exists e', value binary unary args x = Err e'.
Proof. exact (build_fails V Args binary unary show false_ x e args). Qed.
Print Assumptions C99_fails.
Example C99_fails_example :
  let f := Leaf (Fun (fun a : Z => Err ValueError) "f") in
  let x := Bin Add f (Bin Floordiv (Leaf (Val 2)) (Leaf (Val 0))) in
  supported x = true /\ build Z Z zbinary zunary zshow 0 x = Err ZeroDivisionError /\ value zbinary zunary 1 x = Err ValueError.
Proof. cbv zeta. repeat split. Qed.

(* divmod of a lazy function cannot be built, divmod by a lazy function gives the remainder only *)
Theorem C99_divmod_refuted V Args binary unary show (false_ : V) f n (o : obj V Args) v :
  build V Args binary unary show false_ (Bin Divmod (Leaf (Fun f n)) (Leaf o)) = Err AttributeError /\
  exists h, build V Args binary unary show false_ (Bin Divmod (Leaf (Val v)) (Leaf (Fun f n))) = Ok (Fun h ("divmod(" ++ show v ++ "," ++ n ++ ")")) /\
    forall args, h args = (let! x := f args in binary Modulo v x).
Proof. exact (divmod_lazy V Args binary unary show false_ f n o v). Qed.
Print Assumptions C99_divmod_refuted.
(* "and" and "or" with a value on the left cannot be built *)
Theorem C99_and_refuted V Args binary unary show (false_ : V) f n v op : op = And_ \/ op = Or_ ->
  build V Args binary unary show false_ (Bin op (Leaf (Val v)) (Leaf (@Fun V Args f n))) = Err TypeError.
Proof. exact (and_lazy V Args binary unary show false_ f n v op). Qed.
Print Assumptions C99_and_refuted.
(* "not" of a lazy function is False, whatever the function returns *)
Theorem C99_not_refuted V Args binary unary show (false_ : V) f n :
  build V Args binary unary show false_ (Un Not (Leaf (@Fun V Args f n))) = Ok (Val false_).
Proof. exact (not_lazy V Args binary unary show false_ f n). Qed.
Print Assumptions C99_not_refuted.

(* names: the operation between parentheses; a comparison with a value on the left is shown the other way around *)
Theorem C99_name V Args binary unary show (false_ : V) f n (a b : expression V Args) u v op s :
  In (op, s) [(Mul, "*"); (Truediv, "/"); (Floordiv, "//"); (Modulo, "%"); (Add, "+"); (Sub, "-"); (Pow, "^"); (Lt, "<"); (Le, "<=");
              (Gt, ">"); (Ge, ">="); (Eq_, "=="); (Ne, "!=")] ->
  build V Args binary unary show false_ a = Ok u -> build V Args binary unary show false_ b = Ok v ->
  build V Args binary unary show false_ (Bin op a b) = Ok (Fun f n) ->
  (n = "(" ++ str V Args show u ++ s ++ str V Args show v ++ ")" \/
  (exists x op' s', u = Val x /\ opposite op = Some op' /\ In (op', s') [(Lt, "<"); (Le, "<="); (Gt, ">"); (Ge, ">="); (Eq_, "=="); (Ne, "!=")] /\
     n = "(" ++ str V Args show v ++ s' ++ show x ++ ")"))%string.
Proof. exact (build_name V Args binary unary show false_ f n a b u v op s). Qed.
Print Assumptions C99_name.
