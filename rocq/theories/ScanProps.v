(* C90: the commands of spec. *)
From Coq Require Import String QArith Qcanon.
From Verif Require Import ScanModel ScanSpec ScanProofs ScanMain.

(* a command that consists of the words of a scan is read as these words say, and nothing of what follows matters *)
Theorem C90_command ws d tail cmd : says ws d -> laid ws tail cmd -> named ws cmd -> ends tail -> same_dict (parse cmd) d.
Proof. exact (parse_complete ws d tail cmd). Qed.
Print Assumptions C90_command.

Example C90_command_case : exists d, says [txt "zapimage"; txt "sampy"; txt "-1.5"; txt "+.25"; txt "100"; txt "50"; txt "sampz"; txt "0"; txt "2"; txt "20"] d /\
  laid [txt "zapimage"; txt "sampy"; txt "-1.5"; txt "+.25"; txt "100"; txt "50"; txt "sampz"; txt "0"; txt "2"; txt "20"] (txt "  0")
    (txt "zapimage sampy  -1.5 +.25 100 50 sampz 0 2 20  0") /\ ends (txt "  0") /\
  named [txt "zapimage"; txt "sampy"; txt "-1.5"; txt "+.25"; txt "100"; txt "50"; txt "sampz"; txt "0"; txt "2"; txt "20"] (txt "zapimage sampy  -1.5 +.25 100 50 sampz 0 2 20  0") /\
  lookup chars_eqb (txt "npixelsfast") d = Some (FInt 100%Z) /\ lookup chars_eqb (txt "nstepsslow") d = Some (FInt 20%Z) /\
  lookup chars_eqb (txt "motslow") d = Some (FText (txt "sampz")) /\ lookup chars_eqb (txt "time") d = Some (FMs (Qc_of_Z 50)).
Proof.
  eexists. split; [|split; [|split; [|split; [|split; [|split; [|split]]]]]].
  - eapply Zapimage_old.
    + apply L_motor. split; [discriminate | repeat constructor].
    + apply (Negative (txt "1.5")), (Pointed (txt "1") (txt "5")); [repeat constructor | discriminate | repeat constructor].
    + apply (Positive (txt ".25")), (Pointed [] (txt "25")); [repeat constructor | discriminate | repeat constructor].
    + split; [discriminate | split; [repeat constructor | reflexivity]].
    + apply L_motor. split; [discriminate | repeat constructor].
    + apply Bare, (Whole (txt "0")); [discriminate | repeat constructor].
    + apply Bare, (Whole (txt "2")); [discriminate | repeat constructor].
    + split; [discriminate | split; [repeat constructor | reflexivity]].
    + split; [discriminate | split; [repeat constructor | reflexivity]].
  - lay [ch 32]. lay [ch 32; ch 32]. do 7 lay [ch 32]. apply (Laid_last (txt "20") (txt "  0")).
  - vm_compute. tauto.
  - exists (txt "sampy  -1.5 +.25 100 50 sampz 0 2 20  0"). reflexivity.
  - reflexivity.
  - reflexivity.
  - reflexivity.
  - reflexivity.
Qed.

(* whatever is read was written in the command; everything else is an unknown command *)
Theorem C90_nothing_else cmd : parse cmd = [(txt "name", FText (txt "unknown"))] \/
  exists ws tail d, says ws d /\ laid ws tail cmd /\ named ws cmd /\ same_dict (parse cmd) d.
Proof. exact (parse_sound cmd). Qed.
Print Assumptions C90_nothing_else.

(* the words of a command have one meaning *)
Theorem C90_unambiguous ws ws' d d' tail tail' cmd : says ws d -> laid ws tail cmd -> named ws cmd -> ends tail ->
  says ws' d' -> laid ws' tail' cmd -> named ws' cmd -> ends tail' -> same_dict d d'.
Proof. exact (unambiguous ws ws' d d' tail tail' cmd). Qed.
Print Assumptions C90_unambiguous.

(* the last word need not be read to its end: an exposure of 1e-3 is read as 1 *)
Theorem C90_cut_short_refuted : exists ws cmd, laid ws [] cmd /\ named ws cmd /\
  ws = [txt "zapline"; txt "mono"; txt "7"; txt "7.1"; txt "100"; txt "1e-3"] /\ lookup chars_eqb (txt "time") (parse cmd) = Some (FMs (Qc_of_Z 1)).
Proof. exact tail_dropped. Qed.
Print Assumptions C90_cut_short_refuted.

(* and an exposure of 0.5 ms as 0 ms *)
Theorem C90_fraction_refuted : exists cmd, cmd = txt "zapimage sampy 0 1 10 sampz 0 1 10 0.5" /\ lookup chars_eqb (txt "time") (parse cmd) = Some (FMs (Qc_of_Z 0)).
Proof. exact pieces_of_a_second. Qed.
Print Assumptions C90_fraction_refuted.

(* numbers in scientific notation or ending in a point, motors with a digit, a tab after the name and a leading space are not understood *)
Theorem C90_not_understood_refuted : Forall (fun cmd => parse cmd = [(txt "name", FText (txt "unknown"))])
  [txt "ascan samy -1e-05 1 10 1"; txt "ascan samy1 0 1 10 1"; txt "ascan" ++ ch 9 :: txt "samy 0 1 10 1"; txt "ascan samy 0. 1 10 1"; txt " ascan samy 0 1 10 1"].
Proof. exact not_understood. Qed.
Print Assumptions C90_not_understood_refuted.
