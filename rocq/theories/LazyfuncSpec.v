(* What the statements about lazy.py refer to. *)
From Verif Require Import Base LazyfuncModel.
From Coq Require Import String.
Local Open Scope string_scope.
Section Spec.
Variables V Args : Type.
Variable binary : binop -> V -> V -> result V.
Variable unary : unop -> V -> result V.
Variable show : V -> string.
(* the value of an expression when every lazy function is called with the same arguments *)
Fixpoint value (args : Args) (x : expression V Args) : result V :=
  match x with
  | Leaf (Val v) => Ok v
  | Leaf (Fun f _) => f args
  | Bin op a b => let! u := value args a in let! v := value args b in binary op u v
  | Un op a => let! u := value args a in unary op u
  end.
(* the expression contains a lazy function *)
Fixpoint lazy (x : expression V Args) : bool :=
  match x with Leaf (Val _) => false | Leaf (Fun _ _) => true | Bin _ a b => lazy a || lazy b | Un _ a => lazy a end.
(* no divmod, and no "and", "or" with a value on the left, of lazy functions; no "not" of lazy functions *)
Fixpoint supported (x : expression V Args) : bool :=
  match x with
  | Leaf _ => true
  | Bin op a b =>
      supported a && supported b &&
      match op with Divmod => negb (lazy a || lazy b) | And_ | Or_ => negb (lazy b) || lazy a | _ => true end
  | Un op a => supported a && match op with Not => negb (lazy a) | _ => true end
  end.
(* the comparisons can be read from right to left *)
Definition opposite (op : binop) : option binop :=
  match op with Lt => Some Gt | Gt => Some Lt | Le => Some Ge | Ge => Some Le | Eq_ => Some Eq_ | Ne => Some Ne | _ => None end.
Definition mirrored : Prop := forall op op' x y, opposite op = Some op' -> binary op x y = binary op' y x.
End Spec.
Arguments lazy {V Args}. Arguments supported {V Args}. Arguments mirrored {V}. Arguments value {V Args}.
