(* Shared vocabulary of the model: Python exceptions as values, Python
   indexing and slicing of lists, association lists for dictionaries. *)
From Coq Require Export List ZArith Lia Bool Permutation Sorted.
Export ListNotations.
Open Scope Z_scope.

(* Python exceptions that the modelled code can raise.  Only the exception
   class is kept, not the message. *)
Inductive exn : Type :=
| ValueError | TypeError | IndexError | KeyError | RuntimeError
| AttributeError | StopIteration | ZeroDivisionError | NotImplementedError
| MissingParameter | MissingFile | AlreadyExists | NotAFile | NotADirectory
| NotEmpty | FormatError | LockedError | LinAlgError | AssertionError | OSError
| OverflowError | NameError | PermissionError | Interrupt
| UserError (n : nat).

Definition exn_eq_dec (a b : exn) : {a = b} + {a <> b}.
Proof. decide equality; apply Nat.eq_dec. Defined.

Inductive result (A : Type) : Type :=
| Ok (a : A)
| Err (e : exn).
Arguments Ok {A} a.
Arguments Err {A} e.

Definition bind {A B} (r : result A) (f : A -> result B) : result B :=
  match r with Ok a => f a | Err e => Err e end.
Notation "'let!' x ':=' r 'in' k" := (bind r (fun x => k))
  (at level 200, x pattern, right associativity).

Definition is_ok {A} (r : result A) : bool :=
  match r with Ok _ => true | Err _ => false end.

Section MapM.
Context {A B : Type} (f : A -> result B).
Fixpoint mapM (l : list A) : result (list B) :=
  match l with
  | [] => Ok []
  | a :: l' => let! b := f a in let! bs := mapM l' in Ok (b :: bs)
  end.
End MapM.

(* Python's l[i] for a list of length n: negative indices count from the end,
   anything else out of range raises IndexError. *)
Definition py_pos (n : nat) (i : Z) : option nat :=
  let n' := Z.of_nat n in
  if (0 <=? i) && (i <? n') then Some (Z.to_nat i)
  else if (- n' <=? i) && (i <? 0) then Some (Z.to_nat (i + n'))
  else None.

Definition py_get {A} (l : list A) (i : Z) : result A :=
  match py_pos (length l) i with
  | Some k => match nth_error l k with Some a => Ok a | None => Err IndexError end
  | None => Err IndexError
  end.

(* l[i] = x *)
Fixpoint set_nth {A} (l : list A) (k : nat) (x : A) : list A :=
  match l, k with
  | [], _ => []
  | _ :: l', O => x :: l'
  | a :: l', S k' => a :: set_nth l' k' x
  end.

Definition py_set {A} (l : list A) (i : Z) (x : A) : result (list A) :=
  match py_pos (length l) i with
  | Some k => Ok (set_nth l k x)
  | None => Err IndexError
  end.

(* Python's slice bounds with step 1 on a list of length n: None, negative and
   too large limits are normalised the way slice.indices does. *)
Definition slice_bound (n : Z) (dflt : Z) (x : option Z) : Z :=
  match x with
  | None => dflt
  | Some v => let v := if v <? 0 then v + n else v in Z.max 0 (Z.min v n)
  end.

Definition py_slice {A} (l : list A) (a b : option Z) : list A :=
  let n := Z.of_nat (length l) in
  let i := slice_bound n 0 a in
  let j := slice_bound n n b in
  firstn (Z.to_nat (j - i)) (skipn (Z.to_nat i) l).

(* Association lists: Python dictionaries with insertion order. *)
Section Assoc.
Context {K V : Type} (eqb : K -> K -> bool).

Fixpoint lookup (k : K) (d : list (K * V)) : option V :=
  match d with
  | [] => None
  | (k', v) :: d' => if eqb k k' then Some v else lookup k d'
  end.

Definition mem (k : K) (d : list (K * V)) : bool :=
  match lookup k d with Some _ => true | None => false end.

(* d[k] = v: an existing key keeps its position *)
Fixpoint assign (k : K) (v : V) (d : list (K * V)) : list (K * V) :=
  match d with
  | [] => [(k, v)]
  | (k', v') :: d' =>
      if eqb k k' then (k', v) :: d' else (k', v') :: assign k v d'
  end.

(* d.pop(k, None) *)
Fixpoint remove_key (k : K) (d : list (K * V)) : list (K * V) :=
  match d with
  | [] => []
  | (k', v') :: d' => if eqb k k' then d' else (k', v') :: remove_key k d'
  end.

Definition keys (d : list (K * V)) : list K := map fst d.
End Assoc.

(* A boolean equality that decides Leibniz equality. *)
Definition decides_eq {A} (eqb : A -> A -> bool) : Prop :=
  forall x y, eqb x y = true <-> x = y.
