(* Vocabulary for the statements about shells and fluorescence lines, independent of the functions of the model. *)
From Coq Require Import String Ascii DecimalString.
From Verif Require Import Base QcTac.
Local Open Scope string_scope.
Local Open Scope list_scope.
Local Open Scope nat_scope.

(* the decimal numeral of a number, by the standard library *)
Definition numeral (i : nat) : string := NilZero.string_of_uint (Nat.to_uint i).
(* the letters of the main shells: K is the first; the alphabet ends at Z *)
Definition principal (c : ascii) (n : nat) : Prop := 1 <= n <= 16 /\ nat_of_ascii c = 74 + n.
(* the shells of main shell c: K itself, or the letter with a number from 1 to 2n-1 *)
Definition subshell (c : ascii) (s : string) : Prop :=
  exists n, principal c n /\
    ((n = 1 /\ s = String c "") \/ (2 <= n /\ exists i, 1 <= i < 2 * n /\ s = String c (numeral i))).
Definition digits (d : string) : Prop := Forall (fun c => 48 <= nat_of_ascii c <= 57) (list_ascii_of_string d).
(* a capital letter or the same in lower case *)
Definition capital (c u : ascii) : Prop := (exists n, principal u n) /\ (c = u \/ nat_of_ascii c = nat_of_ascii u + 32).
(* what a name stands for *)
Inductive expands : string -> string -> Prop :=
| expands_letter c u s : capital c u -> subshell u s -> expands (String c "") s
| expands_number c d : d <> "" -> digits d -> expands (String c d) (String c d)
| expands_other c d : d <> "" -> ~ digits d -> expands (String c d) (String c "").
(* a name that begins with the letter of a main shell *)
Definition named (s : string) : Prop := exists c d n, s = String c d /\ principal c n.
(* a name of which one expects something when it is expanded *)
Definition expandable (s : string) : Prop := exists c d, s = String c d /\ (d = "" -> exists u, capital c u).
(* all shells of a main shell are there *)
Definition complete (shells : list string) (c : ascii) : Prop :=
  (exists n, principal c n) /\ forall s, subshell c s -> In s shells.
Definition ascending (l : list string) : Prop := StronglySorted (fun a b => String.leb a b = true) l.
(* line l belongs to composite line k *)
Definition composite (cs : list (Z * list Z)) (k l : Z) : Prop := exists ls, In (k, ls) cs /\ In l ls.
(* names like KA1 or LB2 (Siegbahn) *)
Definition siegbahn (n : string) : Prop := exists a b r, n = String a (String b r) /\ (b = "A"%char \/ b = "B"%char).
