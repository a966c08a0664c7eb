(* Vocabulary for the properties of utils/indexing.py, independent of the model
   of that module (only the numpy model is used). *)
From Verif Require Export NumpyModel.
Local Open Scope nat_scope.

(* number of elements a list used as index selects *)
Definition selected (i : ind) : option nat :=
  match i with
  | Ints l => Some (length l)
  | Bools l => Some (length (filter (fun b => b) l))
  | _ => None
  end.
(* all lists in an index select the same number of elements *)
Definition uniform (l : list ind) : Prop :=
  exists n, forall i m, In i l -> selected i = Some m -> m = n.

(* the entries that index an existing dimension *)
Definition dims (l : list ind) : list ind := filter (fun i => negb (is_new i)) l.

(* Lists of bool occur only as the index of the stacking axis, or the stacking
   axis is not indexed by a list. *)
Definition bool_lists_ok (l : list ind) (ax : nat) : Prop :=
  forall i k b, nth_error (dims l) ax = Some i -> selected i <> None ->
    nth_error (dims l) k = Some (Bools b) -> k = ax.

(* Indices whose meaning utils/indexing.py knows: a non-tuple only when there are
   at least two dimensions (or Ellipsis, np.newaxis), an Ellipsis in a tuple must
   stand for at least one dimension. *)
Definition given (l : list ind) : nat := count (fun i => negb (is_new i) && negb (is_ell i)) l.
Definition supported (i : index) (ndim : nat) : Prop :=
  match i with
  | One Ell | One New => True
  | One _ => 2 <= ndim
  | Tup l => In Ell l -> given l < ndim
  end.

(* positions along the stacking axis that an entry selects *)
Definition positions (r : rent) : list nat :=
  match r with RNew => [] | RSl ps => ps | RInt p => [p] | RAdv ps => ps end.
