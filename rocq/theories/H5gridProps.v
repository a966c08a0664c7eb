(* C115: grids of signals (process/h5regulargrid.py) *)
From Verif Require Import H5gridProofs.
From Verif Require Export H5gridModel.
Local Open Scope list_scope.
Local Open Scope nat_scope.

(* An item is the item of the signal selected by the stack dimension, at the other indices. *)
Theorem C115_item : forall V (g : grid V) idx k s, inside idx (shape g) = true -> nth_error idx (stackdim g) = Some k -> nth_error (signals g) k = Some s ->
  getitem g idx = Ok (s (firstn (stackdim g) idx ++ skipn (S (stackdim g)) idx)).
Proof. exact item. Qed.
Print Assumptions C115_item.
(* Indices outside of the grid, and only those, are an IndexError. *)
Theorem C115_outside : forall V (g : grid V) idx, stackdim g <= List.length (sshape g) -> (getitem g idx = Err IndexError <-> inside idx (shape g) = false).
Proof. exact getitem_error. Qed.
Print Assumptions C115_outside.
(* With the signals along the first dimension the values are the items. *)
Theorem C115_values_partial : forall V (g : grid V), stackdim g = 0 ->
  exists v, values g = Ok v /\ forall idx, inside idx (shape g) = true -> exists x, getitem g idx = Ok x /\ v idx = Some x.
Proof. exact values_first. Qed.
Print Assumptions C115_values_partial.
(* Along the second dimension they fail, *)
Theorem C115_values_fail_refuted : forall V (g : grid V) a r, stackdim g = 1 -> sshape g = a :: r -> a <> List.length (signals g) -> a <> 1 -> a <> 0 -> signals g <> [] ->
  values g = Err ValueError.
Proof. exact values_error. Qed.
Print Assumptions C115_values_fail_refuted.
(* or, with as many signals as pixels in the first dimension, they are transposed. *)
Theorem C115_values_transposed_refuted : forall V (g : grid V) m r, stackdim g = 1 -> sshape g = m :: r -> List.length (signals g) = m -> exists v, values g = Ok v /\
  forall i j rest s t, inside (i :: j :: rest) (shape g) = true -> nth_error (signals g) i = Some s -> nth_error (signals g) j = Some t ->
    v (i :: j :: rest) = Some (s (j :: rest)) /\ getitem g (i :: j :: rest) = Ok (t (i :: rest)).
Proof. exact values_transposed. Qed.
Print Assumptions C115_values_transposed_refuted.
(* The stack dimensions of a grid of signals are the axis of the signals and the stack axis of the signals themselves. *)
Theorem C115_stack : forall V A (g : grid V) (axes : list A) (signal_axis : A), stackdim g <= List.length axes ->
  exists a b, stack_dims g = [a; b] /\ a <> b /\ nth_error (insert_at (stackdim g) signal_axis axes) a = Some signal_axis /\
    nth_error (insert_at (stackdim g) signal_axis axes) b = nth_error axes (stackdim_prev g).
Proof. exact stack. Qed.
Print Assumptions C115_stack.
(* For the grid of one signal no axis is added: a stack axis after the stack dimension is not a stack dimension, *)
Theorem C115_signal_stack_refuted : forall d p ndim, p < ndim -> (In p (other_dims ndim (signal_stack_dims d p)) <-> d < p).
Proof. exact signal_stack. Qed.
Print Assumptions C115_signal_stack_refuted.
(* with the last axis as stack axis there is a stack dimension too many, *)
Theorem C115_signal_range_refuted : forall d p ndim, S p = ndim -> (exists x, In x (signal_stack_dims d p) /\ ndim <= x) <-> (d <= p \/ ndim <= d).
Proof. exact signal_range. Qed.
Print Assumptions C115_signal_range_refuted.
(* and by default the second axis is a stack dimension as well. *)
Theorem C115_signal_default_refuted : forall ndim, signal_stack_dims 0 0 = [0; 1] /\ other_dims ndim (signal_stack_dims 0 0) = seq 2 (ndim - 2).
Proof. exact signal_default. Qed.
Print Assumptions C115_signal_default_refuted.
(* In-place operations change the items, but the variable is None afterwards. *)
Theorem C115_inplace_refuted : forall V (op : V -> V) (g : grid V), snd (inplace op g) = None /\
  forall idx x, getitem g idx = Ok x -> getitem (fst (inplace op g)) idx = Ok (op x).
Proof. exact inplace_none. Qed.
Print Assumptions C115_inplace_refuted.

(* three signals of two by four pixels *)
Definition ex_signals (n a b d p : nat) : grid nat := {| signals := map (fun k idx => match idx with [i; j] => 100 * k + 10 * i + j | _ => 0 end) (seq 1 n); sshape := [a; b]; stackdim := d; stackdim_prev := p |}.
Example C115_example : shape (ex_signals 3 2 4 0 0) = [3; 2; 4] /\ getitem (ex_signals 3 2 4 0 0) [2; 1; 3] = Ok 313 /\
  match values (ex_signals 3 2 4 0 0) with Ok v => v [2; 1; 3] | Err _ => None end = Some 313 /\ getitem (ex_signals 3 2 4 0 0) [3; 0; 0] = Err IndexError /\
  shape (ex_signals 3 2 4 1 0) = [2; 3; 4] /\ getitem (ex_signals 3 2 4 1 0) [1; 2; 3] = Ok 313 /\ stack_dims (ex_signals 3 2 4 1 0) = [1; 0] /\ stack_dims (ex_signals 3 2 4 0 1) = [0; 2].
Proof. repeat split; vm_compute; reflexivity. Qed.
Example C115_fail_example : stackdim (ex_signals 3 2 4 1 0) = 1 /\ sshape (ex_signals 3 2 4 1 0) = [2; 4] /\ List.length (signals (ex_signals 3 2 4 1 0)) = 3 /\ values (ex_signals 3 2 4 1 0) = Err ValueError.
Proof. repeat split; vm_compute; reflexivity. Qed.
Example C115_transposed_example : List.length (signals (ex_signals 2 2 4 1 0)) = 2 /\ getitem (ex_signals 2 2 4 1 0) [1; 0; 3] = Ok 113 /\
  match values (ex_signals 2 2 4 1 0) with Ok v => v [1; 0; 3] | Err _ => None end = Some 203.
Proof. repeat split; vm_compute; reflexivity. Qed.
Example C115_signal_example : signal_stack_dims 0 2 = [0; 3] /\ other_dims 3 (signal_stack_dims 0 2) = [1; 2] /\ other_dims 3 (signal_stack_dims 0 0) = [2].
Proof. repeat split; vm_compute; reflexivity. Qed.
Example C115_inplace_example : getitem (fst (inplace (fun x => x + 5) (ex_signals 3 2 4 1 0))) [1; 2; 3] = Ok 318.
Proof. reflexivity. Qed.
