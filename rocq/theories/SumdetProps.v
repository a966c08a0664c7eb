From Verif Require Import SumdetSort.
From Coq Require Import Sorting.Permutation Sorting.Sorted.
Local Open Scope string_scope.
Local Open Scope list_scope.
Local Open Scope nat_scope.

(* ---- which detectors are added ---- *)

(* detectors in groups: each detector is added to its group, and the groups to a total which is not one of the groups *)
Theorem C110_groups_partial : forall include present Ns add before, map numbers include = map Some Ns -> NoDup (concat Ns) -> (forall x, In x (concat Ns) -> (0 <= x)%Z /\ In (DNum x) present) ->
  Forall (fun ns => ns <> []) Ns -> Exists (fun ns => 2 <= List.length ns) Ns -> 2 <= List.length Ns ->
  exists m, (forall x, In x (concat Ns) -> (x <= m)%Z) /\ In m (concat Ns) /\ (Z.of_nat (List.length Ns) <= m)%Z /\
  prepare include present add before =
    Ok (Plan (map (fun p => (Sums (Z.of_nat (fst p)), map DNum (snd p))) (numbered Ns)) before
          (if before then map (fun i => Sums (Z.of_nat i)) (seq 1 (List.length Ns)) else map Det (concat Ns))
          (flat_map singles (numbered Ns) ++ (if add then map (fun i => (Sums (Z.of_nat i), Sums (m + 1))) (seq 1 (List.length Ns)) else []))).
Proof. exact prepare_groups. Qed.
Print Assumptions C110_groups_partial.
Example C110_groups_ex : map numbers [IList [DNum 3; DNum 1]; IDet (DNum 2)] = map Some [[3; 1]; [2]]%Z /\
  (let! p := prepare [IList [DNum 3; DNum 1]; IDet (DNum 2)] [DNum 1; DNum 2; DNum 3] true false in Ok (sumto p)) =
  Ok [(Det 3, Sums 1); (Det 1, Sums 1); (Det 2, Sums 2); (Sums 1, Sums 4); (Sums 2, Sums 4)].
Proof. split; reflexivity. Qed.
(* without groups there is one sum, of two or more detectors and if asked for *)
Theorem C110_all : forall include present N add before,
  include = map (fun x => IDet (DNum x)) N /\ (N = [] -> present = []) /\ (forall x, In x N -> In (DNum x) present) \/ include = [] /\ present = map DNum N -> NoDup N ->
  prepare include present add before =
    Ok (Plan [(Sums 1, map DNum N)] ((1 <? List.length N) && add && before)
          (if (1 <? List.length N) && add && before then [Sums 1] else map Det N)
          (if (1 <? List.length N) && add then map (fun x => (Det x, Sums 1)) N else [])).
Proof. exact prepare_flat. Qed.
Print Assumptions C110_all.
Example C110_all_ex : prepare [] [DNum 0; DNum 2] true true = Ok (Plan [(Sums 1, [DNum 0; DNum 2])] true [Sums 1] [(Det 0, Sums 1); (Det 2, Sums 1)]).
Proof. reflexivity. Qed.
(* a sum of detectors in a list of detectors is taken for its characters *)
Theorem C110_text_refuted : forall include present add before n, In (IDet (DSum n)) include -> 2 <= List.length include -> prepare include present add before = Err ValueError.
Proof. exact text_characters. Qed.
Print Assumptions C110_text_refuted.
Example C110_text_ex : prepare [IDet (DSum 0); IDet (DNum 1)] [DNum 1; DSum 0] true false = Err ValueError.
Proof. reflexivity. Qed.
(* with an empty group the total is the last group: it is added to itself and removed, so that the results are lost *)
Theorem C110_empty_refuted : exists p, prepare [IList [DNum 0; DNum 1]; IList []] [DNum 0; DNum 1] true false = Ok p /\ In (Sums 2, Sums 2) (sumto p) /\
  add_detectors ["I0"] 1 demo_stacks (sumto p) = Ok [(Counters, [("I0", [Leaf (Fin 1)])])].
Proof. eexists. split; [reflexivity|]. split; [right; right; right; left; reflexivity|reflexivity]. Qed.
Print Assumptions C110_empty_refuted.
(* with repeated detectors as well: the results of detector 1 are lost *)
Theorem C110_repeated_refuted : exists p, prepare [IList [DNum 0; DNum 1]; IList [DNum 1; DNum 0]; IDet (DNum 0)] [DNum 0; DNum 1] true false = Ok p /\ In (Sums 2, Sums 2) (sumto p) /\
  add_detectors ["I0"] 1 [(Det 0, [("Fe", [Leaf 10])]); (Det 1, [("Fe", [Leaf 11])])] (sumto p) = Ok [(Sums 2, [("Fe", [Slice Fsum [Leaf 10]])])].
Proof. eexists. split; [reflexivity|]. split; [right; right; right; left; reflexivity|reflexivity]. Qed.
Print Assumptions C110_repeated_refuted.

(* ---- the results of the sums ---- *)

(* the results of the detectors are replaced by those of their groups; results a group already had are kept *)
Theorem C110_added : forall A counters n (s : stacks A) l, dict s -> one_level l -> complete n s l ->
  exists s', add_detectors counters n s l = Ok s' /\ dict s' /\
   (forall D, In D (map fst l) -> lookup key_eqb D s' = None) /\
   (forall D, ~ In D (map fst l) -> ~ In D (map snd l) -> lookup key_eqb D s' = lookup key_eqb D s) /\
   (forall D k, ~ In D (map fst l) ->
      view s' D k = match view s D k with Some a => Some a | None => match contributions s l D k with [] => None | cs => Some (built (func_of counters k) n cs) end end).
Proof. exact @add_one_level. Qed.
Print Assumptions C110_added.
Example C110_added_ex : dict demo_stacks /\ one_level [(Det 0, Sums 1); (Det 1, Sums 1)] /\ complete 1 demo_stacks [(Det 0, Sums 1); (Det 1, Sums 1)] /\
  add_detectors ["I0"] 1 demo_stacks [(Det 0, Sums 1); (Det 1, Sums 1)] = Ok [(Counters, [("I0", [Leaf (Fin 1)])]); (Sums 1, [("Fe", [Slice Fsum [Leaf (Fin 1); Leaf (Fin 1)]])])].
Proof.
  split; [split; repeat constructor; cbn; intuition discriminate|]. split; [split; [repeat constructor; cbn; intuition discriminate|]; intros k d [H|[H|[]]]; inversion H; subst; cbn; intuition discriminate|].
  split; [|reflexivity]. intros k1 k a [<-|[<-|[]]]; unfold view; cbn [demo_stacks lookup key_eqb Z.eqb]; cbn; destruct (String.eqb k "Fe"); intro H; inversion H; reflexivity.
Qed.
(* groups and the total: the results of all detectors in the order of the groups, whatever the groups *)
Theorem C110_total : forall A counters n (s : stacks A) Ns m, dict s -> NoDup (concat Ns) -> (forall x, In x (concat Ns) -> (x <= m)%Z) -> (Z.of_nat (List.length Ns) <= m)%Z ->
  (forall i, lookup key_eqb (Sums i) s = None) -> (forall x k a, In x (concat Ns) -> view s (Det x) k = Some a -> List.length a = n) ->
  exists s', add_detectors counters n s (flat_map singles (numbered Ns) ++ map (fun i => (Sums (Z.of_nat i), Sums (m + 1))) (seq 1 (List.length Ns))) = Ok s' /\
    (forall x, In x (concat Ns) -> lookup key_eqb (Det x) s' = None) /\
    (forall i, 1 <= i <= List.length Ns -> lookup key_eqb (Sums (Z.of_nat i)) s' = None) /\
    (forall k, view s' (Sums (m + 1)) k =
       match flat_map (fun x => match view s (Det x) k with Some a => [a] | None => [] end) (concat Ns) with
       | [] => None
       | cs => Some (built (func_of counters k) n cs)
       end).
Proof. exact @total_of_groups. Qed.
Print Assumptions C110_total.
Example C110_total_ex : add_detectors ["I0"] 1 [(Det 0, [("Fe", [Leaf 10])]); (Det 1, [("Fe", [Leaf 11]); ("wFe", [Leaf 21])]); (Det 2, [("Fe", [Leaf 12])])]
    (flat_map singles (numbered [[2; 0]; [1]]%Z) ++ map (fun i => (Sums (Z.of_nat i), Sums (2 + 1))) (seq 1 2)) =
  Ok [(Sums 3, [("Fe", [Slice Fsum [Leaf 12; Leaf 10; Leaf 11]]); ("wFe", [Slice Fnanmean [Leaf 21]])])].
Proof. reflexivity. Qed.
(* the function: weights are averaged, of chi squared the largest is taken, everything else is added *)
Theorem C110_function : forall counters k,
  (In k counters -> func_of counters k = Fsum) /\
  (~ In k counters -> (exists b, k = "w" ++ b)%string -> func_of counters k = Fnanmean) /\
  (~ In k counters -> ~ (exists b, k = "w" ++ b)%string -> (exists a b, k = a ++ "chisq" ++ b)%string -> func_of counters k = Fnanmax) /\
  (~ (exists b, k = "w" ++ b)%string -> ~ (exists a b, k = a ++ "chisq" ++ b)%string -> func_of counters k = Fsum).
Proof. exact func_spec. Qed.
Print Assumptions C110_function.
(* the value: the function of the values of the detectors, each normalised and corrected for its dead time *)
Theorem C110_value : forall A leaf fluxref flux dtcor other counters n fl dt (s : stacks A) l D k i, dict s -> one_level l -> complete n s l -> In D (map snd l) ->
  (forall k1, In k1 (map fst l) -> isdetector k1 = true) -> ~ In k counters -> view s D k = None -> i < n ->
  exists s', postcorrect counters n fl dt l s = Ok s' /\ (forall k1, In k1 (map fst l) -> lookup key_eqb k1 s' = None) /\
    match view s' D k with
    | None => members s l D k i = []
    | Some a => exists x, nth_error a i = Some x /\
        eval A leaf fluxref flux dtcor other x =
          let! xs := mapM (fun e => let! y := eval A leaf fluxref flux dtcor other (snd e) in xrfnorm fluxref flux dtcor i fl (dt_of dt (fst e)) y) (members s l D k i) in
          apply fluxref flux dtcor other (func_of counters k) xs
    end.
Proof. exact @postcorrect_value. Qed.
Print Assumptions C110_value.
(* finite values that are added: the sum of value * reference flux / flux * dead time correction of the detector *)
Theorem C110_sum : forall A leaf fluxref flux dtcor other counters n dt (s : stacks A) l D k i r w c qs, dict s -> one_level l -> complete n s l -> In D (map snd l) ->
  (forall k1, In k1 (map fst l) -> isdetector k1 = true) -> ~ In k counters -> ~ (exists b, k = "w" ++ b)%string -> ~ (exists a b, k = a ++ "chisq" ++ b)%string -> view s D k = None -> i < n ->
  fluxref i = Ok (Fin r) -> flux i = Ok (Fin w) -> r <> 0%Qc -> w <> 0%Qc -> members s l D k i <> [] ->
  Forall2 (fun e q => eval A leaf fluxref flux dtcor other (snd e) = Ok (Fin q) /\ dtcor i (number (fst e)) = Fin (c (fst e))) (members s l D k i) qs ->
  exists s' a x, postcorrect counters n true dt l s = Ok s' /\ (forall k1, In k1 (map fst l) -> lookup key_eqb k1 s' = None) /\ view s' D k = Some a /\ nth_error a i = Some x /\
    eval A leaf fluxref flux dtcor other x =
      Ok (Fin (fold_right Qcplus 0%Qc (map (fun eq => snd eq * (r / w) * (if dt && negb (issum (fst (fst eq))) then c (fst (fst eq)) else 1))%Qc (combine (members s l D k i) qs)))).
Proof. exact @corrected_sum. Qed.
Print Assumptions C110_sum.
Example C110_sum_ex : members demo_stacks [(Det 0, Sums 1); (Det 1, Sums 1)] (Sums 1) "Fe" 0 = [(Det 0, Leaf (Fin 1)); (Det 1, Leaf (Fin 1))] /\
  Forall2 (fun e q => eval num Ok (fun _ => Ok (Fin 1)) (fun _ => Ok (Fin 1)) (fun _ d => Fin (Qc_of_Z (d + 2))) (fun _ _ => Ok NaN) (snd e) = Ok (Fin q) /\ Fin (Qc_of_Z (number (fst e) + 2)) = Fin (Qc_of_Z (number (fst e) + 2)))
    (members demo_stacks [(Det 0, Sums 1); (Det 1, Sums 1)] (Sums 1) "Fe" 0) [1%Qc; 1%Qc].
Proof. split; [reflexivity|]. repeat constructor. Qed.

(* ---- the order of the images ---- *)

(* the exported values of sorted images are the sorted exported values, also for results that are calculated from other results *)
Theorem C110_sorted : forall F file fluxref fluxdata dtcor other values (s : stacks (source F)) d, Forall (fun g => Forall (fun ka => List.length (snd ka) = List.length values) (snd g)) s ->
  export F file fluxref fluxdata dtcor other [] s = Ok d ->
  exists v s' d' ind, sort_stacks values s = Ok (v, s') /\ export F file fluxref fluxdata dtcor other [] s' = Ok d' /\
    Permutation ind (seq 0 (List.length values)) /\ StronglySorted (fun a b => (a <= b)%Qc) v /\
    (forall j i, nth_error ind j = Some i -> nth_error v j = nth_error values i) /\
    Forall2 (fun e e' => fst e' = fst e /\ List.length (snd e') = List.length values /\ forall j i, nth_error ind j = Some i -> nth_error (snd e') j = nth_error (snd e) i) d d'.
Proof. exact @sorted_export. Qed.
Print Assumptions C110_sorted.
Example C110_sorted_ex : Forall (fun g => Forall (fun ka => List.length (snd ka) = 2) (snd g)) demo_sources /\
  sort_stacks [Qc_of_Z 8; Qc_of_Z 7] demo_sources = Ok ([Qc_of_Z 7; Qc_of_Z 8], [(Counters, [("I0", [Leaf (File (Fin 0)); Leaf (File (Fin 1))])]); (Det 0, [("Fe", [Leaf (File PInf); Slice Fsum [Leaf (Data Counters "I0"); Leaf (File (Fin 1))]])])]).
Proof. split; [repeat constructor|vm_compute; reflexivity]. Qed.
(* each image gets the number of rows of the first: missing rows are zero *)
Theorem C110_rows : forall B (zero : B) n rows, List.length (fit_rows zero n rows) = n /\ forall i, i < n -> nth i (fit_rows zero n rows) zero = nth i rows zero.
Proof. exact (fun B zero n rows => conj (fit_rows_length zero n rows) (fun i => fit_rows_nth zero n rows i)). Qed.
Print Assumptions C110_rows.
