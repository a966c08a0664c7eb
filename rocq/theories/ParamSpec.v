(* What the tree of parameters should look like, without the functions of the model. *)
From Verif Require Import Base ParamModel.

(* node y hangs under p (None: at the top) *)
Definition under (h : heap) (y : nat) (p : option nat) : Prop := exists c, nth_error h y = Some c /\ up c = p.

(* the nodes from x to the top *)
Inductive chain (h : heap) : nat -> list nat -> Prop :=
| Chain_top x : under h x None -> chain h x [x]
| Chain_step x p l : under h x (Some p) -> chain h p l -> chain h x (x :: l).

(* every node has a way to the top, and the lists of children are those of the parents, without repetition *)
Definition linked (h : heap) : Prop :=
  (forall x, (x < length h)%nat -> exists l, chain h x l) /\
  (forall p c, nth_error h p = Some c -> NoDup (down c) /\ forall y, In y (down c) <-> under h y (Some p)).

(* the nodes hold the same as before; there may be new empty ones *)
Definition holds (h : heap) (x : nat) (d : list (key * value)) (f : list key) (s : option (list (list (key * Z)))) : Prop :=
  exists c, nth_error h x = Some c /\ data c = d /\ fresh c = f /\ last c = s.
Definition kept (h h' : heap) : Prop := forall x d f s, holds h x d f s -> holds h' x d f s.

(* dictionaries *)
Definition tidy (h : heap) : Prop := forall x c, nth_error h x = Some c -> NoDup (map fst (data c)).

(* the value of a key at a node: its own, or else that of its parent *)
Inductive sees (h : heap) : nat -> key -> value -> Prop :=
| Sees_own x c k v : nth_error h x = Some c -> In (k, v) (data c) -> sees h x k v
| Sees_up x c p k v : nth_error h x = Some c -> ~ In k (map fst (data c)) -> up c = Some p -> sees h p k v -> sees h x k v.

Definition owns (h : heap) (x : nat) (k : key) : Prop := exists c, nth_error h x = Some c /\ In k (map fst (data c)).

(* y is x or below x *)
Definition at_or_below (h : heap) (x y : nat) : Prop := exists l, chain h y l /\ In x l.

(* a list without an element; with n behind x; with n before x *)
Definition without (n : nat) (l : list nat) : list nat := filter (fun y => negb (Nat.eqb y n)) l.
Fixpoint behind (x n : nat) (l : list nat) : list nat :=
  match l with [] => [] | y :: l' => if Nat.eqb y x then y :: n :: l' else y :: behind x n l' end.
Fixpoint ahead (x n : nat) (l : list nat) : list nat :=
  match l with [] => [] | y :: l' => if Nat.eqb y x then n :: y :: l' else y :: ahead x n l' end.
(* the node itself, and what is above it with n before x *)
Definition before (x n : nat) (l : list nat) : list nat := match l with [] => [] | z :: l' => z :: ahead x n l' end.

(* what a list of ancestors ends with when node n was taken out: the node np that replaces it, if any *)
Definition ends (np : option nat) (n : nat) (l : list nat) (t : list nat) : Prop :=
  match np with None => t = [] | Some m => (In n l -> t = [m]) /\ (~ In n l -> t = []) end.

(* there are no dictionaries among the values *)
Definition plain (h : heap) : Prop := forall x c k, nth_error h x = Some c -> ~ In (k, Sub) (data c).

(* x is y or above it, and the key is not set at a node between them (x excluded) *)
Definition covered (h : heap) (x y : nat) (k : key) : Prop :=
  exists a b, chain h y (a ++ x :: b) /\ forall w, In w a -> ~ owns h w k.

