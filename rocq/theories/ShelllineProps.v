(* C102: shells and fluorescence lines. *)
From Coq Require Import String Ascii.
From Verif Require Import Base QcTac ShelllineModel ShelllineSpec ShelllineProofs.
Local Open Scope string_scope.
Local Open Scope list_scope.
Local Open Scope nat_scope.

(* A main shell stands for its 2n-1 shells, K only for itself, in upper or lower case. *)
Theorem C102_expand_letter : forall c n, principal c n -> 2 <= n ->
  exists l, expand (String c "") = Ok (inr l) /\ NoDup l /\ List.length l = 2 * n - 1 /\ forall s, In s l <-> subshell c s.
Proof. exact expand_letter_list. Qed.
Print Assumptions C102_expand_letter.
Theorem C102_expand_case : forall c u, capital c u -> expand (String c "") = expand (String u "").
Proof. exact expand_lower. Qed.
Print Assumptions C102_expand_case.
Example C102_expand_ex : expand "l" = Ok (inr ["L1"; "L2"; "L3"]) /\ expand "K" = Ok (inl "K") /\ expand "M3" = Ok (inl "M3") /\ expand "LA" = Ok (inl "L").
Proof. repeat split. Qed.

(* The expansion of a list of names is the ordered set of everything they stand for; an empty name is an error. *)
Theorem C102_expandall : forall shells, Forall expandable shells ->
  exists r, expandall shells = Ok r /\ ascending r /\ NoDup r /\ forall s, In s r <-> exists x, In x shells /\ expands x s.
Proof. exact expandall_spec. Qed.
Print Assumptions C102_expandall.
Theorem C102_expandall_empty : forall shells, In "" shells -> expandall shells = Err IndexError.
Proof. exact expandall_empty. Qed.
Print Assumptions C102_expandall_empty.
Example C102_expandall_ex : expandall ["M3"; "L"; "k"; "L2"] = Ok ["K"; "L1"; "L2"; "L3"; "M3"].
Proof. reflexivity. Qed.

(* Violated: splitting one of the shells should keep the others.  Whatever the shells are, only the last shell of the selection
   and its subshells remain; a selected subshell falls apart into its characters. *)
Theorem C102_split_refuted : forall shells selection c u r, capital c u -> expandselection shells (selection ++ [String c ""]) = Ok r ->
  forall s, In s r -> s = String c "" \/ subshell u s.
Proof. exact expandselection_last. Qed.
Print Assumptions C102_split_refuted.
Example C102_split_ex : expandselection ["K"; "L"; "M"] ["L"] = Ok ["L"; "L1"; "L2"; "L3"] /\ expandselection ["K"; "L"] ["L1"] = Ok ["1"; "L"].
Proof. split; reflexivity. Qed.

(* Shrinking replaces the shells of a main shell by its letter when all are there, and keeps the other shells. *)
Theorem C102_shrink : forall order shells, (forall l, Permutation (order l) l) -> Forall named shells ->
  exists r, shrink order shells = Ok r /\ ascending r /\
    forall s, In s r <-> (In s shells /\ ~ exists c d, s = String c d /\ complete shells c) \/ (exists c, s = String c "" /\ complete shells c).
Proof. exact shrink_spec. Qed.
Print Assumptions C102_shrink.
(* The order in which the set of letters is iterated does not matter. *)
Theorem C102_shrink_order : forall order order' shells, (forall l, Permutation (order l) l) -> (forall l, Permutation (order' l) l) -> Forall named shells ->
  shrink order shells = shrink order' shells.
Proof. exact shrink_order. Qed.
Print Assumptions C102_shrink_order.
Theorem C102_shrink_empty : forall order shells, In "" shells -> shrink order shells = Err IndexError.
Proof. exact shrink_empty. Qed.
Print Assumptions C102_shrink_empty.
Example C102_shrink_ex : shrink (@rev string) ["M2"; "L3"; "K"; "L1"; "L2"; "M1"] = Ok ["K"; "L"; "M1"; "M2"] /\ (forall l : list string, Permutation (rev l) l).
Proof. split; [reflexivity|]. intros l. apply Permutation_sym, Permutation_rev. Qed.

(* Expanding what was shrunk gives the shells back. *)
Theorem C102_round_trip : forall order shells, (forall l, Permutation (order l) l) -> Forall (fun s => exists c, subshell c s) shells ->
  exists r r', shrink order shells = Ok r /\ expandall r = Ok r' /\ ascending r' /\ NoDup r' /\ forall s, In s r' <-> In s shells.
Proof. exact round_trip. Qed.
Print Assumptions C102_round_trip.
Example C102_round_trip_ex : subshell "L" "L2" /\ subshell "K" "K" /\ (let! r := shrink (fun l => l) ["L3"; "L1"; "K"; "L2"] in expandall r) = Ok ["K"; "L1"; "L2"; "L3"].
Proof.
  split; [exists 2; split; [split; [lia|reflexivity]|]; right; split; [lia|]; exists 2; split; [lia|reflexivity]|].
  split; [exists 1; split; [split; [lia|reflexivity]|]; left; split; reflexivity|reflexivity].
Qed.

(* For PyMca: the shrunk shells of K, L and M; the subshells of M only when asked for. *)
Theorem C102_pymca : forall order names allow, (forall l, Permutation (order l) l) -> Forall named names ->
  exists r, pymcafactory order names [] allow = Ok r /\
    exists sh, shrink order names = Ok sh /\
    forall s, In s r <-> In s sh /\ exists c d, s = String c d /\ In c ["K"%char; "L"%char; "M"%char] /\ (allow = true \/ c <> "M"%char \/ d = "").
Proof. exact pymca_spec. Qed.
Print Assumptions C102_pymca.
Example C102_pymca_ex : pymcafactory (fun l => l) ["K"; "L1"; "L2"; "L3"; "M1"; "N1"] [] false = Ok ["K"; "L"] /\
  pymcafactory (fun l => l) ["K"; "L1"; "L2"; "L3"; "M1"; "N1"] ["L"] true = Ok ["L"; "L1"; "L2"; "L3"].
Proof. split; reflexivity. Qed.

(* A small part of the tables of xraylib, with its codes. *)
Definition some_tables : tables := {|
  t_shells := [(0, "K"); (1, "L1"); (2, "L2"); (3, "L3")]%Z;
  t_lines := [("KA1", -3); ("KA2", -2); ("KL1", -1); ("KL2", -2); ("KL3", -3); ("KM3", -6); ("KP", -24); ("KP1", -25); ("KA", 0); ("KB", 1); ("LA", 2); ("LA1", -90); ("L3M5", -90)]%Z;
  t_composites := [(0, [-3; -2; -1]); (1, [-25; -6]); (-24, [-25])]%Z;
  t_lineenergy := fun z c => if (c =? -24)%Z then Qc_of_Z 9 else if (c =? -3)%Z then Qc_of_Z 6 else 0%Qc;
  t_radrate := fun z c => if (c =? -3)%Z then (1 / Qc_of_Z 2)%Qc else if (c =? -2)%Z then (1 / Qc_of_Z 4)%Qc else 0%Qc
|}.

(* The name of a line made from its code is one of the names with this code, and none of them is longer; of two names of the same
   length the IUPAC name is preferred. *)
Theorem C102_line_name : forall t code n, getlinename t (LineCode code) = Ok n ->
  In (n, code) (t_lines t) /\ forall m, In (m, code) (t_lines t) -> String.length m <= String.length n.
Proof. exact getlinename_code. Qed.
Print Assumptions C102_line_name.
Theorem C102_line_iupac : forall t code n0 n1, NoDup (map fst (t_lines t)) -> (forall m, In (m, code) (t_lines t) <-> m = n0 \/ m = n1) ->
  String.length n0 = String.length n1 -> siegbahn n1 -> ~ siegbahn n0 -> getlinename t (LineCode code) = Ok n0.
Proof. exact getlinename_two. Qed.
Print Assumptions C102_line_iupac.
Example C102_line_name_ex : getlinename some_tables (LineCode (-3)) = Ok "KL3" /\ getlinename some_tables (LineCode (-90)) = Ok "L3M5" /\ siegbahn "KA1" /\ ~ siegbahn "KL3".
Proof.
  split; [reflexivity|]. split; [reflexivity|]. split; [exists "K"%char, "A"%char, "1"; split; [reflexivity|now left]|].
  intros (a & b & r & E & [-> | ->]); discriminate.
Qed.
(* A line made from a name keeps this name; unknown names and codes are errors. *)
Theorem C102_line_from_name : forall t name c, NoDup (map fst (t_lines t)) -> In (name, c) (t_lines t) ->
  new_line t (LineName name) = Ok {| l_code := c; l_name := name |}.
Proof. exact new_line_name. Qed.
Print Assumptions C102_line_from_name.
Theorem C102_line_from_code : forall t code l, new_line t (LineCode code) = Ok l -> l_code l = code /\ In (l_name l, code) (t_lines t).
Proof. exact new_line_code. Qed.
Print Assumptions C102_line_from_code.
Theorem C102_line_unknown : forall t name, ~ In name (map fst (t_lines t)) -> new_line t (LineName name) = Err KeyError.
Proof. exact new_line_unknown. Qed.
Print Assumptions C102_line_unknown.
(* The name of an unknown line, and only of that, is a ValueError. *)
Theorem C102_linename_unknown : forall t name, getlinename t (LineName name) = Err ValueError <-> ~ In name (map fst (t_lines t)).
Proof. exact linename_unknown. Qed.
Print Assumptions C102_linename_unknown.
Theorem C102_line_unknown_code : forall t code, ~ In code (map snd (t_lines t)) -> new_line t (LineCode code) = Err ValueError.
Proof. exact new_line_unknown_code. Qed.
Print Assumptions C102_line_unknown_code.
Example C102_line_unknown_ex : new_line some_tables (LineName "KX") = Err KeyError /\ new_line some_tables (LineCode 77) = Err ValueError /\
  new_line some_tables (LineName "KA1") = Ok {| l_code := -3; l_name := "KA1" |} /\ new_line some_tables (LineCode (-3)) = Ok {| l_code := -3; l_name := "KL3" |}.
Proof. repeat split. Qed.

(* A shell made from a code or a name has both; unknown codes and names are errors. *)
Theorem C102_shell_from_code : forall t code name, NoDup (map fst (t_shells t)) -> In (code, name) (t_shells t) ->
  new_shell t (ShellCode code) None = Ok {| s_code := code; s_name := name; s_lines := None |}.
Proof. exact new_shell_code. Qed.
Print Assumptions C102_shell_from_code.
Theorem C102_shell_from_name : forall t code name, NoDup (map snd (t_shells t)) -> In (code, name) (t_shells t) ->
  new_shell t (ShellName name) None = Ok {| s_code := code; s_name := name; s_lines := None |}.
Proof. exact new_shell_name. Qed.
Print Assumptions C102_shell_from_name.
Theorem C102_shell_unknown : forall t fl, (forall code, ~ In code (map fst (t_shells t)) -> new_shell t (ShellCode code) fl = Err ValueError) /\
  (forall name, ~ In name (map snd (t_shells t)) -> new_shell t (ShellName name) fl = Err KeyError).
Proof. exact new_shell_unknown. Qed.
Print Assumptions C102_shell_unknown.
Example C102_shell_from_ex : new_shell some_tables (ShellCode 77) None = Err ValueError /\ new_shell some_tables (ShellName "Q9") None = Err KeyError /\ new_shell some_tables (ShellCode 0) None = new_shell some_tables (ShellName "K") None.
Proof. repeat split. Qed.
(* Lines are ordered by their codes, also against a number; a text cannot be compared. *)
Theorem C102_line_less : forall l, (forall z, less l (Num z) = Ok true <-> (l_code l < z)%Z) /\ (forall l', less l (Line l') = Ok true <-> (l_code l < l_code l')%Z) /\ (forall s, less l (Text s) = Err TypeError).
Proof. exact less_spec. Qed.
Print Assumptions C102_line_less.
Example C102_line_less_ex : less {| l_code := -3; l_name := "KL3" |} (Num (-2)) = Ok true /\ less {| l_code := -2; l_name := "KL2" |} (Line {| l_code := -3; l_name := "KL3" |}) = Ok false.
Proof. split; reflexivity. Qed.

(* Violated: equality should be transitive and agree with the order.  Two names of the same line both equal its code, but they
   are not equal, although neither is smaller. *)
Theorem C102_equality_refuted : forall t n m c l l', NoDup (map fst (t_lines t)) -> In (n, c) (t_lines t) -> In (m, c) (t_lines t) -> n <> m ->
  new_line t (LineName n) = Ok l -> new_line t (LineName m) = Ok l' ->
  equal l (Num c) = true /\ equal l' (Num c) = true /\ equal l (Line l') = false /\ less l (Line l') = Ok false /\ less l' (Line l) = Ok false.
Proof. exact alias_unequal. Qed.
Print Assumptions C102_equality_refuted.
Example C102_equality_ex : NoDup (map fst (t_lines some_tables)) /\ In ("KA1", -3)%Z (t_lines some_tables) /\ In ("KL3", -3)%Z (t_lines some_tables).
Proof.
  split; [|split; [now left|cbn; tauto]].
  assert (forall l, nodup string_dec l = l -> NoDup l) as H by (intros l <-; apply NoDup_nodup). apply H. vm_compute. reflexivity.
Qed.

(* All lines: those of the codes between the smallest and the largest, composites decomposed, each once. *)
Theorem C102_all_lines : forall t l, NoDup (map fst (t_lines t)) -> all_lines t = Ok l -> NoDup (map l_name l) /\
  forall x, In x l <-> exists a b c code, In a (map snd (t_lines t)) /\ In b (map snd (t_lines t)) /\ (a <= c <= b)%Z /\ In code (decompose t c) /\
    new_line t (LineCode code) = Ok x.
Proof. exact all_lines_spec. Qed.
Print Assumptions C102_all_lines.
Definition few_tables : tables := {|
  t_shells := [(0, "K"); (1, "L1")]%Z; t_lines := [("KL1", -1); ("KL2", -2); ("KA", 0)]%Z; t_composites := [(0, [-2; -1])]%Z;
  t_lineenergy := fun z c => Qc_of_Z (- c); t_radrate := fun z c => if (c =? -1)%Z then (1 / Qc_of_Z 2)%Qc else (1 / Qc_of_Z 4)%Qc |}.
Example C102_all_lines_ex : all_lines few_tables = Ok [{| l_code := -1; l_name := "KL1" |}; {| l_code := -2; l_name := "KL2" |}].
Proof. reflexivity. Qed.

(* Selection of lines: by energy, limits included, lines without energy excluded; by the shell of the line or of one of its parts. *)
Theorem C102_select_energy : forall t shells fl z lo hi r, line_factory t shells fl (Some (z, lo, hi)) = Ok r ->
  exists all, line_factory t shells fl None = Ok all /\
    forall l, In l r <-> In l all /\ (lo <= line_energy t z (l_code l))%Qc /\ (line_energy t z (l_code l) <= hi)%Qc /\ line_energy t z (l_code l) <> 0%Qc.
Proof. exact factory_bounds. Qed.
Print Assumptions C102_select_energy.
Theorem C102_select_shell : forall t shells fl r, line_factory t (Some shells) fl None = Ok r ->
  exists all names, line_factory t None fl None = Ok all /\ mapM (getshellname t) shells = Ok names /\
    forall l, In l r <-> In l all /\ exists code s n rest, In code (decompose t (l_code l)) /\ In s names /\ getlinename t (LineCode code) = Ok n /\ n = (s ++ rest)%string.
Proof. exact factory_shells. Qed.
Print Assumptions C102_select_shell.
Example C102_select_ex : line_factory few_tables (Some [ShellName "K"]) (Some [LineName "KA"; LineCode (-2)]) None = Ok [{| l_code := 0; l_name := "KA" |}; {| l_code := -2; l_name := "KL2" |}] /\
  line_factory few_tables (Some [ShellName "K"]) None (Some (26%Z, Qc_of_Z 1, Qc_of_Z 1)) = Ok [{| l_code := -1; l_name := "KL1" |}] /\
  line_factory few_tables (Some [ShellName "L"]) None None = Err ValueError.
Proof. repeat split. Qed.

(* The energy of a line: its own when known, else that of the smallest composite with a negative code that has one. *)
Theorem C102_energy_own : forall t z code, t_lineenergy t z code <> 0%Qc -> line_energy t z code = t_lineenergy t z code.
Proof. exact line_energy_own. Qed.
Print Assumptions C102_energy_own.
Theorem C102_energy_composite : forall t z code, t_lineenergy t z code = 0%Qc ->
  (exists k, composite (t_composites t) k code /\ (k < 0)%Z /\ t_lineenergy t z k <> 0%Qc /\ line_energy t z code = t_lineenergy t z k /\
     forall k', composite (t_composites t) k' code -> (k' < 0)%Z -> t_lineenergy t z k' <> 0%Qc -> (k <= k')%Z) \/
  ((forall k, composite (t_composites t) k code -> (k < 0)%Z -> t_lineenergy t z k = 0%Qc) /\ line_energy t z code = 0%Qc).
Proof. exact line_energy_composite. Qed.
Print Assumptions C102_energy_composite.
(* The radiative rate of a line: its own when known, else an equal share of that of the composite. *)
Theorem C102_radrate_own : forall t z code, t_radrate t z code <> 0%Qc -> line_radrate t z code = t_radrate t z code.
Proof. exact line_radrate_own. Qed.
Print Assumptions C102_radrate_own.
Theorem C102_radrate_composite : forall t z code, NoDup (map fst (t_composites t)) -> t_radrate t z code = 0%Qc ->
  (exists k ls, In (k, ls) (t_composites t) /\ In code ls /\ (k < 0)%Z /\ t_radrate t z k <> 0%Qc /\
     (line_radrate t z code * Qc_of_Z (Z.of_nat (List.length ls)) = t_radrate t z k)%Qc /\
     forall k', composite (t_composites t) k' code -> (k' < 0)%Z -> t_radrate t z k' <> 0%Qc -> (k <= k')%Z) \/
  ((forall k, composite (t_composites t) k code -> (k < 0)%Z -> t_radrate t z k = 0%Qc) /\ line_radrate t z code = 0%Qc).
Proof. exact line_radrate_composite. Qed.
Print Assumptions C102_radrate_composite.
Example C102_energy_ex : line_energy some_tables 26 (-25) = Qc_of_Z 9 /\ line_energy some_tables 26 (-3) = Qc_of_Z 6 /\ line_energy some_tables 26 (-6) = 0%Qc /\
  line_radrate {| t_shells := []; t_lines := []; t_composites := [(-24, [-25; -26])]%Z; t_lineenergy := fun _ _ => 0%Qc; t_radrate := fun _ c => if (c =? -24)%Z then 1%Qc else 0%Qc |} 26 (-25)
    = (1 / Qc_of_Z 2)%Qc.
Proof. repeat split; apply Qc_is_canon; vm_compute; reflexivity. Qed.

(* The shell of a line is a shell whose name begins that of the line, or an error. *)
Theorem C102_shell : forall t l s, shell_of t l = Ok s -> In s (map snd (t_shells t)) /\ exists r, l_name l = (s ++ r)%string.
Proof. exact shell_of_spec. Qed.
Print Assumptions C102_shell.
Theorem C102_shell_missing : forall t l, (forall s r, In s (map snd (t_shells t)) -> l_name l <> (s ++ r)%string) -> shell_of t l = Err RuntimeError.
Proof. exact shell_of_none. Qed.
Print Assumptions C102_shell_missing.
Example C102_shell_ex : shell_of some_tables {| l_code := -90; l_name := "L3M5" |} = Ok "L3" /\ shell_of some_tables {| l_code := -90; l_name := "LA1" |} = Err RuntimeError.
Proof. split; reflexivity. Qed.

(* The group of a line: KA or KB when this is the first name of its smallest composite, else its shell. *)
Theorem C102_group : forall t l s k names,
  shell_of t l = Ok s -> composite (t_composites t) k (l_code l) -> (forall k', composite (t_composites t) k' (l_code l) -> (k <= k')%Z) -> code_to_line t k = Ok names ->
  groupname t l = match names with [] => Err IndexError | n :: _ => Ok (if String.eqb n "KA" || String.eqb n "KB" then n else s) end.
Proof. exact groupname_spec. Qed.
Print Assumptions C102_group.
Theorem C102_group_plain : forall t l s, shell_of t l = Ok s -> (forall k, ~ composite (t_composites t) k (l_code l)) -> groupname t l = Ok s.
Proof. exact groupname_plain. Qed.
Print Assumptions C102_group_plain.
(* Violated: the lines of K are those of KA and KB.  The lines from O and P belong to KB, but also to the composites KO and KP, which
   have a smaller code: their group is K. *)
Theorem C102_group_refuted : exists t l, composite (t_composites t) 1 (l_code l) /\ In ("KB", 1%Z) (t_lines t) /\ groupname t l = Ok "K".
Proof.
  exists some_tables, {| l_code := -25; l_name := "KP1" |}. split; [exists [-25; -6]%Z; split; [cbn; tauto|now left]|]. split; [cbn; tauto|reflexivity].
Qed.
Print Assumptions C102_group_refuted.
Example C102_group_ex : groupname some_tables {| l_code := -6; l_name := "KM3" |} = Ok "KB" /\ groupname some_tables {| l_code := -3; l_name := "KL3" |} = Ok "KA" /\
  groupname some_tables {| l_code := -90; l_name := "L3M5" |} = Ok "L3".
Proof. repeat split. Qed.

(* The yields of the lines of a shell sum up to its yield, in the state in which they are left. *)
Theorem C102_yield : forall t z fy s s' d, decomposed_yield t z fy s = (s', Ok d) ->
  exists l, s_lines s' = Some l /\ (NoDup (map l_name l) ->
    (forall n q, In (n, q) d <-> exists x, In x l /\ l_name x = n /\ q = (fy * line_radrate t z (l_code x))%Qc) /\
    qsum (map snd d) = total_yield t z fy s').
Proof. exact decomposed_spec. Qed.
Print Assumptions C102_yield.
(* Asking for the lines of a shell stores them. *)
Theorem C102_lines_stored : forall t s s' l, fluolines t s = (s', Ok l) -> fluolines t s' = (s', Ok l) /\ s_code s' = s_code s /\ s_name s' = s_name s.
Proof. exact fluolines_stored. Qed.
Print Assumptions C102_lines_stored.
(* Violated: asking for the yields of the lines should not change the yield of the shell.  A shell with all lines has its fluorescence
   yield; after its lines were asked for it has this times the sum of their radiative rates. *)
Theorem C102_yield_refuted : exists t z fy s s' d, decomposed_yield t z fy s = (s', Ok d) /\ NoDup (map l_name (match s_lines s' with Some l => l | None => [] end)) /\
  total_yield t z fy s <> total_yield t z fy s'.
Proof.
  exists few_tables, 26%Z, 1%Qc, {| s_code := 0; s_name := "K"; s_lines := None |}, {| s_code := 0; s_name := "K"; s_lines := Some [{| l_code := -1; l_name := "KL1" |}; {| l_code := -2; l_name := "KL2" |}] |}.
  eexists. split; [reflexivity|]. split; [cbn; constructor; [intros [E|[]]; discriminate|constructor; [intros []|constructor]]|].
  intros E. apply (f_equal (fun q => Qc_eqb q 1)) in E. vm_compute in E. discriminate.
Qed.
Print Assumptions C102_yield_refuted.
