(* C40 and C41: names with a counter. *)
From Coq Require Import String.
From Verif Require Import NameSpec NameProofs TextProofs.

Theorem C41_decompose : forall name, no_digits name \/ exists pre ds post, last_number name pre ds post.
Proof. exact number_cases. Qed.
Print Assumptions C41_decompose.

Theorem C41_decompose_unique : forall name pre ds post pre' ds' post',
  last_number name pre ds post -> last_number name pre' ds' post' ->
  pre = pre' /\ ds = ds' /\ post = post'.
Proof. exact last_number_fun. Qed.
Print Assumptions C41_decompose_unique.

(* Only the last number changes: value, padding, prefix and suffix.  A longer number has no
   leading zeros. *)
Theorem C41_increment_partial : forall name pre ds post n,
  no_braces name -> last_number name pre ds post -> 0 <= value ds + n ->
  exists ds', increment name n = Fmt (pre ++ ds' ++ post) /\
              last_number (pre ++ ds' ++ post) pre ds' post /\
              value ds' = value ds + n /\ (length ds <= length ds')%nat /\
              ((length ds < length ds')%nat -> tight ds').
Proof. exact increment_number. Qed.
Print Assumptions C41_increment_partial.

Example C41_increment_example :
  no_braces (txt "ab007_0099.h") /\ last_number (txt "ab007_0099.h") (txt "ab007_") (txt "0099") (txt ".h") /\
  increment (txt "ab007_0099.h") 1 = Fmt (txt "ab007_0100.h") /\
  increment (txt "ab007_0099.h") 9901 = Fmt (txt "ab007_10000.h").
Proof.
  split; [repeat constructor; discriminate|]. split; [|split; reflexivity].
  split; [reflexivity|]. split; [discriminate|]. split; [repeat constructor|]. split; [repeat constructor|].
  intros p c E. change (txt "ab007_") with (txt "ab007" ++ [ch 95]) in E. apply app_inj_tail in E as [_ <-].
  reflexivity.
Qed.

Theorem C41_unnumbered_partial : forall name n, no_braces name -> no_digits name -> 0 <= n ->
  exists ds, increment name n = Fmt (name ++ [ch 46] ++ ds) /\ digits ds /\ ds <> [] /\
             value ds = n /\ tight ds.
Proof. exact increment_unnumbered. Qed.
Print Assumptions C41_unnumbered_partial.

Example C41_unnumbered_example :
  no_braces (txt "name") /\ no_digits (txt "name") /\ increment (txt "name") 12 = Fmt (txt "name.12").
Proof. split; [repeat constructor; discriminate|]. split; [repeat constructor|reflexivity]. Qed.

(* a counter below zero gets a sign, which is not part of a number *)
Theorem C41_negative : forall name pre ds post n,
  no_braces name -> last_number name pre ds post -> value ds + n < 0 ->
  exists ds', increment name n = Fmt (pre ++ [ch 45] ++ ds' ++ post) /\ digits ds' /\
              value ds' = - (value ds + n) /\ (length ds <= 1 + length ds')%nat.
Proof. exact increment_below. Qed.
Print Assumptions C41_negative.

Theorem C41_compose_partial : forall name m n s, no_braces name -> 0 <= m -> 0 <= n ->
  increment name m = Fmt s -> increment s n = increment name (m + n).
Proof. exact increment_compose. Qed.
Print Assumptions C41_compose_partial.

Example C41_compose_example :
  increment (txt "x09") 95 = Fmt (txt "x104") /\ increment (txt "x104") 900 = Fmt (txt "x1004").
Proof. split; reflexivity. Qed.

(* adding 1 and subtracting it again leaves a zero in front *)
Theorem C41_compose_refuted :
  increment (txt "x99") 1 = Fmt (txt "x100") /\ increment (txt "x100") (-1) = Fmt (txt "x099") /\
  increment (txt "x99") (1 + -1) = Fmt (txt "x99").
Proof. split; [reflexivity|split; reflexivity]. Qed.
Print Assumptions C41_compose_refuted.

(* braces in a name are taken as a replacement field: the counter is lost, the rest of the
   name changes, or formatting fails *)
Theorem C41_braces_refuted :
  increment (txt "a{0}") 1 = Fmt (txt "a{:01d}") /\ increment (txt "a{0}") 2 = Fmt (txt "a{:01d}") /\
  increment (txt "a{{b1") 1 = Fmt (txt "a{b2") /\
  increment (txt "a}1") 1 = FErr ValueError /\ increment (txt "a{}1") 1 = FErr IndexError.
Proof. repeat split; reflexivity. Qed.
Print Assumptions C41_braces_refuted.

(* match(name) accepts exactly the same name with another counter (an unnumbered name with
   or without counter), apart from a final newline *)
Theorem C41_match : forall name s,
  matches name s = Some true <-> same_name name s \/ exists t, s = t ++ [newline] /\ same_name name t.
Proof. exact matches_spec. Qed.
Print Assumptions C41_match.

Theorem C41_match_total : forall name s, exists b, matches name s = Some b.
Proof. exact matches_total. Qed.
Print Assumptions C41_match_total.

Theorem C41_increment_matches_partial : forall name n s, no_braces name ->
  (forall pre ds post, last_number name pre ds post -> 0 <= value ds + n) ->
  (no_digits name -> 0 <= n) ->
  increment name n = Fmt s -> matches name s = Some true.
Proof. exact increment_matches. Qed.
Print Assumptions C41_increment_matches_partial.

Example C41_match_example :
  matches (txt "a.b[1]_02.h5") (txt "a.b[1]_117.h5") = Some false /\
  matches (txt "a.b[1]_02.h") (txt "a.b[1]_117.h") = Some true /\
  matches (txt "a.b[1]_02.h") (txt "acb[1]_117.h") = Some false /\
  matches (txt "scan") (txt "scan.3") = Some true /\ matches (txt "scan.3") (txt "scan") = Some false.
Proof. repeat split; reflexivity. Qed.

(* the match function of a Name ignores the name *)
Theorem C41_matchfunc_refuted :
  name_matchfunc (new_Name (txt "scan0001")) (txt "scan0002") = Some false /\
  name_matchfunc (new_Name (txt "scan0001")) (txt "<class 'str'>.5") = Some true.
Proof. split; reflexivity. Qed.
Print Assumptions C41_matchfunc_refuted.

Theorem C40_prepare_partial : forall name, no_braces name -> exists s, prepare name = Fmt s /\
  (no_digits name -> s = name ++ [ch 46] ++ [ch 49]) /\ (~ no_digits name -> s = name).
Proof. exact prepare_first. Qed.
Print Assumptions C40_prepare_partial.

Theorem C40_sequence_partial : forall name x s, no_braces name -> 0 <= x ->
  name_str (name_iadd (new_Name name) x) = Fmt s -> nth_name name x s.
Proof. exact name_ops. Qed.
Print Assumptions C40_sequence_partial.

Theorem C40_sequence_unique : forall name k s t, nth_name name k s -> nth_name name k t -> s = t.
Proof. exact nth_name_fun. Qed.
Print Assumptions C40_sequence_unique.

Theorem C40_sequence_distinct : forall name j k s, nth_name name j s -> nth_name name k s -> j = k.
Proof. exact nth_name_inj. Qed.
Print Assumptions C40_sequence_distinct.

Theorem C40_sequence_start : forall name s, nth_name name 0 s ->
  (no_digits name -> s = name ++ [ch 46] ++ [ch 49]) /\ (~ no_digits name -> s = name).
Proof. exact nth_name_0. Qed.
Print Assumptions C40_sequence_start.

(* The search ends with the first name of the sequence that does not exist. *)
Theorem C40_first_free_partial : forall ex name l fuel,
  no_braces name -> finite ex l -> (length l < fuel)%nat ->
  exists m k s, first_free ex fuel (new_Name name) = Some (Ok m) /\ name_str m = Fmt s /\
    0 <= k <= Z.of_nat (length l) /\ nth_name name k s /\ ex s = false /\
    (forall i u, 0 <= i < k -> nth_name name i u -> ex u = true).
Proof. exact first_free_ok. Qed.
Print Assumptions C40_first_free_partial.

Definition some_names (s : chars) : bool :=
  existsb (chars_eqb s) [txt "entry0001"; txt "entry0002"; txt "entry0004"; txt "map"; txt "map(9)"; txt "map(10)"].
Example C40_search_example :
  finite some_names [txt "entry0001"; txt "entry0002"; txt "entry0004"; txt "map"; txt "map(9)"; txt "map(10)"] /\
  next_nxentry_name some_names 7 (Some (txt "entry0001")) = Some (Ok (txt "entry0003")) /\
  nonexisting_name some_names 7 (txt "map") = Some (Ok (txt "map(1)")) /\
  nonexisting_name some_names 7 (txt "map(9)") = Some (Ok (txt "map(11)")).
Proof.
  split; [|repeat split; reflexivity].
  intros s H. apply existsb_exists in H as (x & I & E). apply chars_eqb_spec in E as ->. exact I.
Qed.

Theorem C40_next_entry_partial : forall ex e l fuel,
  no_braces e -> finite ex l -> (length l < fuel)%nat ->
  exists k s, next_nxentry_name ex fuel (Some e) = Some (Ok s) /\ nth_name e k s /\ ex s = false /\
    0 <= k <= Z.of_nat (length l) /\ (forall i u, 0 <= i < k -> nth_name e i u -> ex u = true).
Proof. exact next_entry_ok. Qed.
Print Assumptions C40_next_entry_partial.

Theorem C40_nonexisting_partial : forall ex l fuel name,
  no_braces name -> finite ex l -> (length l < fuel)%nat ->
  exists s, nonexisting_name ex fuel name = Some (Ok s) /\ ex s = false /\
    (ex name = false -> s = name) /\
    (ex name = true -> exists base i j,
       ((exists ds, counted name base ds /\ i = value ds + 1) \/
        ((forall b ds, ~ counted name b ds) /\ base = name /\ i = 1)) /\
       i <= j <= i + Z.of_nat (length l) /\ counter_name base j s /\
       (forall k u, i <= k < j -> counter_name base k u -> ex u = true)).
Proof. exact nonexisting_ok. Qed.
Print Assumptions C40_nonexisting_partial.

(* a name with braces around its number: the search never ends once "a{:01d}" exists *)
Theorem C40_braces_refuted : forall fuel ex, ex (txt "a{:01d}") = true ->
  first_free ex fuel (new_Name (txt "a{0}")) = None.
Proof. exact brace_loop. Qed.
Print Assumptions C40_braces_refuted.
Theorem C40_nonexisting_braces_refuted :
  nonexisting_name (fun s => chars_eqb s (txt "a}b")) 5 (txt "a}b") = Some (Err ValueError).
Proof. reflexivity. Qed.
Print Assumptions C40_nonexisting_braces_refuted.

(* without an NXentry in the file the proposed name may exist *)
Theorem C40_next_entry_refuted : forall fuel ex,
  next_nxentry_name ex fuel None = Some (Ok (txt "entry0001")).
Proof. reflexivity. Qed.
Print Assumptions C40_next_entry_refuted.

(* unlock leaves a name locked: it is never incremented again *)
Theorem C40_unlock_refuted : forall fuel ex name s, name_str (new_Name name) = Fmt s -> ex s = true ->
  first_free ex fuel (name_unlock (name_lock (new_Name name))) = None.
Proof. exact locked_loop. Qed.
Print Assumptions C40_unlock_refuted.
