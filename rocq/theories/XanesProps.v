(* C92: the XANES scans of a spec file and their repeats. *)
From Coq Require Import String Permutation.
From Verif Require Import XanesModel XanesSpec XanesProofs.

(* the scans are listed in the order of the file: the individual ones with one repeat, the sums with the number in their command *)
Theorem C92_listed_partial skip nrmin nrmax scans es : listed (in_range skip nrmin nrmax) scans es -> extractxanesinfo skip nrmin nrmax scans = Ok es.
Proof. exact (info_spec skip nrmin nrmax scans es). Qed.
Print Assumptions C92_listed_partial.
Example C92_listed_case : listed (in_range [4]%Z (Some 2%Z) None) [mono 1; mono 2; mono 3; mono 4; sums 5 (txt "12")] [(2, 1); (3, 1); (5, 12)]%Z.
Proof.
  assert (B : forall n, begins (txt "zapline mono ") (command (mono n))) by (intros n; eexists; reflexivity).
  apply Listed_out; [left; intros [H _]; specialize (H _ eq_refl); cbn in H; lia|].
  apply (Listed_in _ (mono 2)); [split; [intros m E; injection E as <-; cbn; lia | split; [discriminate | cbn; lia]] | apply Noted_line; [apply B | discriminate]|].
  apply (Listed_in _ (mono 3)); [split; [intros m E; injection E as <-; cbn; lia | split; [discriminate | cbn; lia]] | apply Noted_line; [apply B | discriminate]|].
  apply Listed_out; [left; intros [_ [_ H]]; apply H; left; reflexivity|].
  apply (Listed_in _ (sums 5 (txt "12"))); [split; [intros m E; injection E as <-; cbn; lia | split; [discriminate | cbn; lia]] | | constructor].
  apply Noted_sum; [|discriminate]. exists (txt "12"), (txt " 50"). split; [reflexivity|]. split; [discriminate|]. split; [repeat constructor|].
  split; [reflexivity|]. right. eexists. reflexivity.
Qed.

(* every entry is a scan of the file that was asked for and has data *)
Theorem C92_entries skip nrmin nrmax scans es e : extractxanesinfo skip nrmin nrmax scans = Ok es -> In e es ->
  exists s, In s scans /\ in_range skip nrmin nrmax s /\ lines s <> 0%Z /\ fst e = number s /\
    (begins (txt "zapline mono ") (command s) /\ snd e = 1%Z \/ begins (txt "zapenergy SUM ") (command s) \/ begins (txt "zapenergy SUM2 ") (command s)).
Proof. exact (info_sound skip nrmin nrmax scans es e). Qed.
Print Assumptions C92_entries.

(* each sum is grouped with the individual scans directly before it; what is not grouped follows on its own. Without individual scans being kept
   every scan occurs exactly once, and the sums only when they are to be kept; otherwise the individual scans are listed a second time. *)
Theorem C92_groups o data : exists gs ss, group o data = gs ++ map (fun x => [x]) ss /\ grouped (keepsum o && sumingroups o) data gs /\
  (keepindividual o = true -> ss = map fst (filter (fun x => keepsum o || Z.leb (snd x) 1) data)) /\
  (keepindividual o = false -> Permutation (concat gs ++ ss) (map fst (filter (fun x => keepsum o || Z.leb (snd x) 1) data))).
Proof. exact (grouping o data). Qed.
Print Assumptions C92_groups.
Example C92_groups_case : group (mk_gopts true true false) [(1, 1); (2, 1); (3, 1); (4, 2); (5, 1); (6, 3); (7, 1)]%Z = [[2; 3; 4]; [5; 6]; [1]; [7]]%Z.
Proof. reflexivity. Qed.
(* the groups are determined by the scans *)
Theorem C92_groups_unique w data gs gs' : grouped w data gs -> grouped w data gs' -> gs = gs'.
Proof. exact (grouped_fun w data gs gs'). Qed.
Print Assumptions C92_groups_unique.
Theorem C92_file_partial o skip nrmin nrmax scans es gs : listed (in_range skip nrmin nrmax) scans es -> group o es = gs -> extractxanesginfo o skip nrmin nrmax scans = Ok gs.
Proof. exact (ginfo_spec o skip nrmin nrmax scans es gs). Qed.
Print Assumptions C92_file_partial.

(* a SUM2 scan takes the place of the scan before it, whatever that was, and fails when there is none *)
Theorem C92_sum2_first_refuted : extractxanesinfo [] None None [sum2 1 (txt "3")] = Err IndexError.
Proof. exact sum2_first. Qed.
Print Assumptions C92_sum2_first_refuted.
Theorem C92_sum2_drops_refuted : extractxanesinfo [] None None [mono 1; sum2 2 (txt "3")] = Ok [(2, 3)%Z].
Proof. exact sum2_drops. Qed.
Print Assumptions C92_sum2_drops_refuted.
(* a group need not have as many scans as its sum has repeats, and other scans may have been made in between *)
Theorem C92_few_repeats_refuted : exists o scans, extractxanesginfo o [] None None scans = Ok [[1; 2]]%Z /\ scans = [mono 1; mono 2; sums 3 (txt "5")].
Proof. exact few_repeats. Qed.
Print Assumptions C92_few_repeats_refuted.
Theorem C92_in_between_refuted : exists o scans, extractxanesginfo o [] None None scans = Ok [[1; 2]; [5]]%Z /\
  scans = [mono 1; mono 2; mk_fscan 3 (txt "ascan samy 0 1 10 1") 11; sums 4 (txt "2"); mono 5].
Proof. exact foreign_repeats. Qed.
Print Assumptions C92_in_between_refuted.
