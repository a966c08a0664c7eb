From Verif Require Export SumdetModel.
Local Open Scope list_scope.
Local Open Scope nat_scope.

(* the arguments that an expression adds to a function *)
Definition merged {A} (f : fn) (a : arg A) : list (arg A) :=
  match a with Slice g m => if fn_eqb f g && samemerge f then m else [a] | Leaf _ => [a] end.
(* expressions of n images that combine given expressions in order *)
Definition built {A} (f : fn) (n : nat) (cs : list (list (arg A))) : list (arg A) :=
  map (fun i => Slice f (flat_map (fun args => match nth_error args i with Some a => merged f a | None => [] end) cs)) (seq 0 n).
(* the expressions of a result of a group *)
Definition view {A} (s : stacks A) (D : key) (k : string) : option (list (arg A)) :=
  match lookup key_eqb D s with Some l => lookup String.eqb k l | None => None end.
(* the expressions that are added to the result of a group, in order *)
Definition contributions {A} (s : stacks A) (l : list (key * key)) (D : key) (k : string) : list (list (arg A)) :=
  flat_map (fun kd => if key_eqb (snd kd) D then match view s (fst kd) k with Some a => [a] | None => [] end else []) l.
(* every result of the detectors that are added has n images *)
Definition complete {A} (n : nat) (s : stacks A) (l : list (key * key)) : Prop :=
  forall k1 k a, In k1 (map fst l) -> view s k1 k = Some a -> List.length a = n.
(* dictionaries have keys once *)
Definition dict {A} (s : stacks A) : Prop := NoDup (map fst s) /\ Forall (fun g => NoDup (map fst (snd g))) s.
(* no group is added to a detector that is added *)
Definition one_level (l : list (key * key)) : Prop := NoDup (map fst l) /\ forall k d, In (k, d) l -> ~ In d (map fst l).

(* values of the leaves only *)
Definition finite_or_nan (x : num) : Prop := match x with Fin _ | NaN => True | _ => False end.
(* detectors given by number *)
Definition numbers (i : item) : option (list Z) :=
  match i with
  | IDet (DNum n) => Some [n]
  | IDet _ => None
  | IList l => fold_right (fun d r => match d, r with DNum n, Some r => Some (n :: r) | _, _ => None end) (Some []) l
  end.
(* the dead time is corrected of single detectors *)
Definition dt_of (dt : bool) (d : key) : option Z := if dt && negb (issum d) then Some (number d) else None.
(* the members of a group that have a result, in order, with their expression for an image *)
Definition members {A} (s : stacks A) (l : list (key * key)) (D : key) (k : string) (i : nat) : list (key * arg A) :=
  flat_map (fun kd => if key_eqb (snd kd) D then match view s (fst kd) k with Some a => match nth_error a i with Some x => [(fst kd, x)] | None => [] end | None => [] end else []) l.
(* groups with their number *)
Definition numbered {B} (l : list B) : list (nat * B) := combine (seq 1 (List.length l)) l.
(* the detectors of a group, to be added to it *)
Definition singles (p : nat * list Z) : list (key * key) := map (fun x => (Det x, Sums (Z.of_nat (fst p)))) (snd p).
