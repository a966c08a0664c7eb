(* Vocabulary for the XANES scans of a spec file and their repeats. *)
From Coq Require Import String Permutation.
From Verif Require Export NameSpec XanesModel.
Local Open Scope nat_scope.

(* the scans that count, and what is noted of them *)
Definition in_range (skip : list Z) (nrmin nrmax : option Z) (s : fscan) : Prop :=
  (forall m, nrmin = Some m -> m <= number s)%Z /\ (forall m, nrmax = Some m -> number s <= m)%Z /\ ~ In (number s) skip.
Definition begins (p s : chars) : Prop := exists r, s = p ++ r.
(* the word after "zapenergy SUM " *)
Definition sum_of (sum : chars) (s : fscan) (n : Z) : Prop :=
  exists w r, command s = txt "zapenergy" ++ ch 32 :: sum ++ ch 32 :: w ++ r /\ w <> [] /\ digits w /\ value w = n /\ (r = [] \/ exists r', r = ch 32 :: r').
Inductive noted (s : fscan) : entry -> Prop :=
| Noted_line : begins (txt "zapline mono ") (command s) -> lines s <> 0%Z -> noted s (number s, 1%Z)
| Noted_sum : forall n, sum_of (txt "SUM") s n -> lines s <> 0%Z -> noted s (number s, n).
(* a scan that is not a XANES scan *)
Definition other (s : fscan) : Prop :=
  lines s = 0%Z \/ (~ begins (txt "zapline mono ") (command s) /\ ~ begins (txt "zapenergy SUM ") (command s) /\ ~ begins (txt "zapenergy SUM2 ") (command s)).
(* the list of what is noted, in the order of the file *)
Inductive listed (keep : fscan -> Prop) : list fscan -> list entry -> Prop :=
| Listed_nil : listed keep [] []
| Listed_out : forall s ss es, ~ keep s \/ other s -> listed keep ss es -> listed keep (s :: ss) es
| Listed_in : forall s ss e es, keep s -> noted s e -> listed keep ss es -> listed keep (s :: ss) (e :: es).

(* the individual scans that belong to a sum: those directly before it, at most as many as it has repeats, and no more than that are there *)
Definition repeats_before (before reps : list entry) (x : entry) : Prop :=
  exists pre, before = pre ++ reps /\ Forall (fun r => snd r = 1%Z) reps /\ (Z.of_nat (length reps) <= snd x)%Z /\
  (Z.of_nat (length reps) = snd x \/ pre = [] \/ exists p y, pre = p ++ [y] /\ snd y <> 1%Z).
Definition nonempty (g : list Z) : list (list Z) := match g with [] => [] | _ => [g] end.
(* the groups of a list of scans, withsum: the sum is part of its group *)
Inductive grouped (withsum : bool) : list entry -> list (list Z) -> Prop :=
| Grouped_nil : grouped withsum [] []
| Grouped_individual : forall l gs x, (snd x <= 1)%Z -> grouped withsum l gs -> grouped withsum (l ++ [x]) gs
| Grouped_sum : forall l gs x reps, (1 < snd x)%Z -> grouped withsum l gs -> repeats_before l reps x ->
    grouped withsum (l ++ [x]) (gs ++ nonempty (map fst reps ++ if withsum then [fst x] else [])).
