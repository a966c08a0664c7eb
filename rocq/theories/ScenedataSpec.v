(* C116: what the items of a stack of images are *)
From Verif Require Export ScenedataModel.
Local Open Scope list_scope.
Local Open Scope nat_scope.

(* The index of the grid and the label for an item, one value or a tuple [l]: in stack dimension k the position of value k of l, or of -1 when there is none; everything in the other dimensions. *)
Definition is_item {V} (locate : nat -> V -> result Z) (labels : Z -> string) (minus1 : V) (sd : nat) (sds : list nat) (n : nat) (it : item V) (x : list index * string) : Prop :=
  List.length (fst x) = n /\
  (exists l, (it = Tuple l \/ exists v, it = Value v /\ l = [v]) /\
     forall k d, nth_error sds k = Some d -> exists j, locate d (nth k l minus1) = Ok j /\ nth_error (fst x) d = Some (At j) /\ (d = sd -> snd x = labels j)) /\
  (forall d, d < n -> ~ In d sds -> nth_error (fst x) d = Some Slice).
(* number of elements that are not None *)
Definition some_count {A} (l : list (option A)) : nat := List.length (filter (fun x => match x with Some _ => true | None => false end) l).
