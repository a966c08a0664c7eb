(* Properties of default plots *)
From Coq Require Import String.
Close Scope string_scope.
From Verif Require Import DefaultplotModel DefaultplotSpec DefaultplotProofs.
Local Notation s := list_ascii_of_string.
Local Open Scope list_scope.
Local Open Scope nat_scope.

(* every plot with the signal shows it, the others do not change; the last plot with the signal is the default *)
Theorem C121_selected l n : exists r sel, set_default l (Some n) = Ok (r, sel) /\
  Forall2 (fun d d' => (has_signal d n -> x_signal d' = Some n) /\ (~ has_signal d n -> d' = d)) l r /\
  (forall k d, nth_error l k = Some d -> has_signal d n -> (forall k' d', k < k' -> nth_error l k' = Some d' -> ~ has_signal d' n) -> sel = Some k) /\
  ((forall d, In d l -> ~ has_signal d n) -> sel = None).
Proof. exact (selected l n). Qed.
Print Assumptions C121_selected.
Example C121_selected_case :
  set_default [mkData [] (Some (s"Fe")) None []; mkData [] (Some (s"Ca")) (Some [s"Fe"]) []; mkData [] (Some (s"K")) None []] (Some (s"Fe")) =
  Ok ([mkData [] (Some (s"Fe")) None []; mkData [] (Some (s"Fe")) (Some [s"Ca"]) []; mkData [] (Some (s"K")) None []], Some 1).
Proof. reflexivity. Qed.

(* without a name it is the signal of the first plot; a first plot without signal is an error *)
Theorem C121_no_name d l : (forall n, x_signal d = Some n -> set_default (d :: l) None = set_default (d :: l) (Some n)) /\ (x_signal d = None -> set_default (d :: l) None = Err AttributeError).
Proof. exact (selected_none d l). Qed.
Print Assumptions C121_no_name.
(* then the first plot is not the default when another one has a signal with the same name *)
Theorem C121_first_refuted d l n k d' : x_signal d = Some n -> nth_error l k = Some d' -> has_signal d' n -> exists r j, set_default (d :: l) None = Ok (r, Some j) /\ S k <= j.
Proof. exact (last_selected d l n k d'). Qed.
Print Assumptions C121_first_refuted.
Example C121_first_case : set_default [mkData [] (Some (s"Fe")) None []; mkData [] (Some (s"Fe")) None []] None = Ok ([mkData [] (Some (s"Fe")) None []; mkData [] (Some (s"Fe")) None []], Some 1) /\
  set_default [mkData [] None None []; mkData [] (Some (s"Fe")) None []] None = Err AttributeError.
Proof. split; reflexivity. Qed.

(* the groups above a plot, up to the entry, point to it; the root points to the entry *)
Theorem C121_marked name mids e t : Forall plain mids -> (forall g, hd_error mids = Some g -> snd g = Some NXother) ->
  mark_default ((name, Some NXdata) :: mids ++ [(e, Some NXentry); (t, Some NXroot)]) =
  map (fun k => match nth_error (mids ++ [(e, Some NXentry)]) k with Some (_, Some _) => Some (MDefault (rev (firstn (S k) (name :: map fst mids)))) | _ => None end) (seq 0 (S (List.length mids))) ++ [Some (MDefault [e])].
Proof. exact (marked name mids e t). Qed.
Print Assumptions C121_marked.
Example C121_marked_case : mark_default [(s"plot", Some NXdata); (s"results", Some NXother); (s"process", Some NXother); (s"entry", Some NXentry); (s"/", Some NXroot)] =
  [Some (MDefault [s"plot"]); Some (MDefault [s"results"; s"plot"]); Some (MDefault [s"process"; s"results"; s"plot"]); Some (MDefault [s"entry"])].
Proof. reflexivity. Qed.
(* a signal becomes the signal of its plot, which is marked *)
Theorem C121_signal n d c up : mark_default ((n, c) :: (d, Some NXdata) :: up) = Some (MSignal n) :: mark_default ((d, Some NXdata) :: up).
Proof. exact (signal_marked n d c up). Qed.
Print Assumptions C121_signal.
Example C121_signal_case : mark_default [(s"Fe", None); (s"plot", Some NXdata); (s"entry", Some NXentry); (s"/", Some NXroot)] =
  [Some (MSignal (s"Fe")); Some (MDefault [s"plot"]); Some (MDefault [s"entry"])].
Proof. reflexivity. Qed.
(* a group without plots leaves all groups but the root as they are; so does a plot in a group without class *)
Theorem C121_lost_refuted mids path e t : Forall plain mids -> plain path \/ (snd path = Some NXdata /\ exists g, hd_error mids = Some g /\ snd g = None) ->
  mark_default (path :: mids ++ [(e, Some NXentry); (t, Some NXroot)]) = repeat None (S (List.length mids)) ++ [Some (MDefault [e])].
Proof. exact (unmarked mids path e t). Qed.
Print Assumptions C121_lost_refuted.
Example C121_lost_case : mark_default [(s"plot", Some NXdata); (s"results", None); (s"process", Some NXother); (s"entry", Some NXentry); (s"/", Some NXroot)] = [None; None; None; Some (MDefault [s"entry"])].
Proof. reflexivity. Qed.
