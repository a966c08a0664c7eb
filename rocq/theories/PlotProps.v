From Coq Require Import String.
Close Scope string_scope.
From Verif Require Import PlotSpec PlotProofs.
Local Notation s := list_ascii_of_string.

(* ---- C44: any sequence of operations in which no listed name is added again, nothing missing
   is linked and the only signal is never removed ---- *)
Theorem C44_history_partial : forall l, all_proper empty_data l -> consistent (fold_left step l empty_data).
Proof. exact (fun l => steps_consistent l empty_data empty_consistent). Qed.
Print Assumptions C44_history_partial.

Definition ex_ops : list op :=
  [Add (s"Fe") (Create (Some [3; 4]) ModeA); Add (s"Ca") (Create (Some [3; 4]) ModeA);
   Add (s"S") (LinkTo (Some [3; 4])); Add (s"K") (Create (Some [3; 5]) ModeA); Default (s"Fe"); Default (s"Zn");
   Remove (s"Fe"); SortBy None; Add (s"Ag") (Create (Some [3; 4]) ModeX); SortBy (Some [s"S"; s"Ag"; s"Ca"]);
   Remove (s"Ag")].
Example C44_history_example : all_proper empty_data ex_ops /\
  listed (fold_left step ex_ops empty_data) = [s"S"; s"Ca"] /\
  map fst (x_mem (fold_left step ex_ops empty_data)) = [s"Ca"; s"S"] /\
  listed (fold_left step (firstn 5 ex_ops) empty_data) = [s"Fe"; s"S"; s"Ca"] /\
  add_signal (fold_left step (firstn 3 ex_ops) empty_data) (s"K") (Create (Some [3; 5]) ModeA)
    = (fold_left step (firstn 3 ex_ops) empty_data, Err FormatError).
Proof.
  split; [|vm_compute; repeat split].
  cbn [all_proper ex_ops]. repeat (split; [vm_compute; try (split; [|discriminate]); intuition discriminate|]). exact I.
Qed.

(* without axes, all the signals keep the shape of the first ones *)
Theorem C44_shape_partial : forall l s0 d, consistent d -> all_proper d l -> x_axes d = [] -> s0 <> [] -> listed d <> [] ->
  uniform d s0 -> forall n, In n (listed (fold_left step l d)) -> there (fold_left step l d) n s0.
Proof. exact steps_uniform. Qed.
Print Assumptions C44_shape_partial.
Example C44_shape_example :
  let d := fold_left step (firstn 1 ex_ops) empty_data in
  x_axes d = [] /\ listed d = [s"Fe"] /\ uniform d [3; 4] /\ all_proper d (skipn 1 ex_ops).
Proof.
  split; [reflexivity|]. split; [reflexivity|]. split.
  - intros n I. vm_compute in I. destruct I as [<-|[]]. left. reflexivity.
  - cbn [skipn ex_ops all_proper]. repeat (split; [vm_compute; try (split; [|discriminate]); intuition discriminate|]). exact I.
Qed.

(* ---- the operations one by one ---- *)
Theorem C44_add_partial : forall d name src d' r, consistent d -> add_signal d name src = (d', r) ->
  ~ In name (listed d) -> src <> LinkTo None ->
  consistent d' /\
  match r with
  | Ok _ => x_signal d' = Some name /\ listed d' = name :: auxs d ++ sigs d
  | Err _ => listed d' = listed d /\ x_signal d' = x_signal d
  end /\
  (forall n s, In n (listed d) -> (there d' n s <-> there d n s)).
Proof. exact add_spec. Qed.
Print Assumptions C44_add_partial.

Theorem C44_remove_partial : forall d name d' r, consistent d -> remove_signal d name = (d', r) -> listed d <> [name] ->
  consistent d' /\
  match r with
  | Ok _ => Permutation (listed d') (filter (fun s => negb (chars_eqb s name)) (listed d)) /\ lookup name (x_mem d') = None /\
            (x_signal d <> Some name -> x_signal d' = x_signal d) /\
            (x_signal d = Some name -> exists a, auxs d = auxs d' ++ [a] /\ x_signal d' = Some a)
  | Err _ => d' = d
  end /\
  (forall n s, n <> name -> (there d' n s <-> there d n s)).
Proof. exact remove_spec. Qed.
Print Assumptions C44_remove_partial.

Theorem C44_default : forall d name d' b, consistent d -> default_signal d name = (d', b) ->
  consistent d' /\ Permutation (listed d') (listed d) /\ x_mem d' = x_mem d /\
  (b = true <-> In name (listed d)) /\ x_signal d' = (if b then Some name else x_signal d).
Proof. exact default_spec. Qed.
Print Assumptions C44_default.

Theorem C44_sort : forall d other d' r, consistent d -> sort_signals d other = (d', r) ->
  consistent d' /\ Permutation (listed d') (listed d) /\ x_mem d' = x_mem d /\
  match x_signal d, other with
  | None, _ => r = Err AttributeError /\ d' = d
  | Some _, None => r = Ok tt /\ StronglySorted le_name (listed d')
  | Some _, Some o => r = Ok tt /\ (Permutation o (listed d) -> listed d' = o) /\ (~ Permutation o (listed d) -> d' = d)
  end.
Proof. exact sort_spec. Qed.
Print Assumptions C44_sort.

Definition ex_data : nxdata := fold_left step (firstn 3 ex_ops) empty_data.
Example C44_steps_example :
  listed ex_data = [s"S"; s"Fe"; s"Ca"] /\
  listed (fst (add_signal ex_data (s"Zn") (Create (Some [3; 4]) ModeA))) = [s"Zn"; s"Fe"; s"Ca"; s"S"] /\
  listed (fst (remove_signal ex_data (s"S"))) = [s"Ca"; s"Fe"] /\
  listed (fst (remove_signal ex_data (s"Fe"))) = [s"S"; s"Ca"] /\
  listed (fst (default_signal ex_data (s"Ca"))) = [s"Ca"; s"S"; s"Fe"] /\
  snd (default_signal ex_data (s"Zn")) = false /\
  listed (fst (sort_signals ex_data None)) = [s"Ca"; s"Fe"; s"S"] /\
  listed (fst (sort_signals ex_data (Some [s"Fe"; s"S"; s"Ca"]))) = [s"Fe"; s"S"; s"Ca"] /\
  fst (sort_signals ex_data (Some [s"Fe"; s"S"])) = ex_data.
Proof. vm_compute. repeat split. Qed.
Example C44_consistent_example : consistent ex_data.
Proof. exact (steps_consistent (firstn 3 ex_ops) _ empty_consistent (let P := proj1 C44_history_example in
  conj (proj1 P) (conj (proj1 (proj2 P)) (conj (proj1 (proj2 (proj2 P))) I)))). Qed.

(* ---- where the property fails ---- *)
(* a listed signal that is added again (its data set exists: nothing is created) is listed twice *)
Theorem C44_again_refuted : forall d name m, consistent d -> In name (listed d) ->
  check_shape d name (Create None m) = Ok tt -> m = ModeA ->
  exists d', add_signal d name (Create None m) = (d', Ok tt) /\ ~ NoDup (listed d').
Proof. exact add_listed. Qed.
Print Assumptions C44_again_refuted.
(* and removing it then leaves the name among the signals *)
Example C44_again_example :
  let d := fst (add_signal ex_data (s"S") (Create None ModeA)) in
  check_shape ex_data (s"S") (Create None ModeA) = Ok tt /\
  listed d = [s"S"; s"Fe"; s"Ca"; s"S"] /\
  listed (fst (remove_signal d (s"S"))) = [s"S"; s"Fe"; s"Ca"] /\
  lookup (s"S") (x_mem (fst (remove_signal d (s"S")))) = None.
Proof. vm_compute. repeat split. Qed.

(* removing the only signal leaves it as the default, without its data set *)
Theorem C44_only_refuted : forall d name, consistent d -> listed d = [name] ->
  exists d', remove_signal d name = (d', Ok tt) /\ listed d' = [name] /\ lookup name (x_mem d') = None.
Proof. exact remove_last. Qed.
Print Assumptions C44_only_refuted.
(* no signal can be added any more *)
Example C44_only_example :
  let d := fst (add_signal empty_data (s"S") (Create (Some [2]) ModeA)) in
  listed d = [s"S"] /\
  snd (add_signal (fst (remove_signal d (s"S"))) (s"Fe") (Create (Some [2]) ModeA)) = Err MissingFile.
Proof. vm_compute. repeat split. Qed.

(* a link to a missing data set is accepted as the first signal *)
Theorem C44_link_refuted : exists d', add_signal empty_data (s"S") (LinkTo None) = (d', Ok tt) /\
  listed d' = [s"S"] /\ forall sh, ~ there d' (s"S") sh.
Proof.
  eexists. split; [reflexivity|]. split; [reflexivity|]. intros sh [H|H]; vm_compute in H; discriminate.
Qed.
Print Assumptions C44_link_refuted.
(* after a signal without dimensions the shapes are not compared, also not with axes given later *)
Theorem C44_scalar_refuted : exists d1 d2, add_signal empty_data (s"S") (Create (Some []) ModeA) = (d1, Ok tt) /\
  add_signal d1 (s"Fe") (Create (Some [3; 4]) ModeA) = (d2, Ok tt) /\ there d2 (s"S") [] /\ there d2 (s"Fe") [3; 4].
Proof.
  eexists _, _. split; [reflexivity|]. split; [reflexivity|]. split; left; reflexivity.
Qed.
Print Assumptions C44_scalar_refuted.
