(* C29: chemical formulas *)
From Coq Require Import String.
From Verif Require Import QcTac FormulaModel FormulaSpec FormulaProofs.
Local Open Scope Qc_scope.

(* a formula, however nested, gives each element its number of atoms *)
Theorem C29_formula s f w : writes s f -> blanks w -> exists d, eval (s ++ w) = Some (Ok d) /\ counts_of f d.
Proof. exact (eval_writes s f w). Qed.
Print Assumptions C29_formula.
Example C29_example : let s := list_ascii_of_string "Ca5 (P O4)3 (OH).5" in
  exists f, writes s f /\ map (fun e => this (counted (list_ascii_of_string e) f)) ["Ca"; "P"; "O"; "H"]%string = [5 # 1; 3 # 1; 25 # 2; 1 # 2]%Q.
Proof.
  cbv zeta. eexists. split.
  - change (list_ascii_of_string "Ca5 (P O4)3 (OH).5") with (list_ascii_of_string "Ca5" ++ list_ascii_of_string " (P O4)3" ++ list_ascii_of_string " (OH).5").
    apply writes_more; [|apply writes_more; [|apply writes_one]].
    + refine (writes_el [] (list_ascii_of_string "Ca") (list_ascii_of_string "5") _ _ _ (mult_num [] _ _ _ (num_int _ _ _))); repeat constructor; discriminate.
    + refine (writes_gr (list_ascii_of_string " ") (list_ascii_of_string "P O4") [] (list_ascii_of_string "3") _ _ _ _ _ (mult_num [] _ _ _ (num_int _ _ _))); try (repeat constructor; discriminate).
      change (list_ascii_of_string "P O4") with (list_ascii_of_string "P" ++ list_ascii_of_string " O4"). apply writes_more; [|apply writes_one].
      * refine (writes_el [] (list_ascii_of_string "P") [] _ _ _ mult_none); repeat constructor.
      * refine (writes_el (list_ascii_of_string " ") (list_ascii_of_string "O") (list_ascii_of_string "4") _ _ _ (mult_num [] _ _ _ (num_int _ _ _))); repeat constructor; discriminate.
    + refine (writes_gr (list_ascii_of_string " ") (list_ascii_of_string "OH") [] (list_ascii_of_string ".5") _ _ _ _ _ (mult_num [] _ _ _ (num_frac (list_ascii_of_string "5") _ _))); try (repeat constructor; discriminate).
      change (list_ascii_of_string "OH") with (list_ascii_of_string "O" ++ list_ascii_of_string "H"). apply writes_more; [|apply writes_one].
      * refine (writes_el [] (list_ascii_of_string "O") [] _ _ _ mult_none); repeat constructor.
      * refine (writes_el [] (list_ascii_of_string "H") [] _ _ _ mult_none); repeat constructor.
  - vm_compute. reflexivity.
Qed.

(* every string is decided: the atoms of the formula it starts with, or, when it does not
   start with a formula, refused *)
Theorem C29_terminates s : eval s <> None.
Proof. exact (eval_terminates s). Qed.
Print Assumptions C29_terminates.
Theorem C29_accepted s d : eval s = Some (Ok d) -> exists s0 r f, s = s0 ++ r /\ writes s0 f /\ counts_of f d.
Proof. exact (eval_prefix s d). Qed.
Print Assumptions C29_accepted.
Theorem C29_rejected s e : eval s = Some (Err e) -> e = FormatError /\ forall s0 r f, s = s0 ++ r -> ~ writes s0 f.
Proof. exact (eval_error s e). Qed.
Print Assumptions C29_rejected.
Example C29_rejected_example : eval (list_ascii_of_string "(H2O") = Some (Err FormatError) /\ eval [] = Some (Err FormatError).
Proof. split; reflexivity. Qed.

(* but what follows a formula is silently dropped *)
Theorem C29_truncated_refuted s f c t : writes s f -> foreign c ->
  (exists d, eval (s ++ c :: t) = Some (Ok d) /\ eval s = Some (Ok d) /\ counts_of f d) /\
  forall s0 w g, s ++ c :: t = s0 ++ w -> blanks w -> ~ writes s0 g.
Proof. exact (truncated s f c t). Qed.
Print Assumptions C29_truncated_refuted.
Example C29_truncated_example : writes (list_ascii_of_string "Fe") [El (list_ascii_of_string "Fe") 1] /\ foreign "-"%char.
Proof.
  split; [|vm_compute; intuition discriminate]. apply writes_one. refine (writes_el [] (list_ascii_of_string "Fe") [] _ _ _ mult_none); repeat constructor.
Qed.
