(* Properties of the creation of tasks *)
From Verif Require Import MaketaskModel MaketaskSpec MaketaskProofs.
Local Open Scope string_scope.
Local Open Scope list_scope.
Local Open Scope nat_scope.

(* given parameters are kept; the name is the method and others their default when not given *)
Theorem C119_kept required optional defaults p r : set_parameters required optional defaults p = Ok r -> forall k, In k ("name" :: "method" :: "default" :: required ++ optional) ->
  (forall v, lookup String.eqb k p = Some v -> lookup String.eqb k r = Some v) /\
  (~ In k (map fst p) -> k <> "name" -> k <> "default" -> lookup String.eqb k r = lookup String.eqb k defaults) /\
  (~ In k (map fst p) -> k = "name" -> lookup String.eqb k r = lookup String.eqb "method" p) /\
  (~ In k (map fst p) -> k = "default" -> lookup String.eqb k r = Some NoneValue).
Proof. exact (parameters_kept required optional defaults p r). Qed.
Print Assumptions C119_kept.
(* only known parameters are kept, all required ones are there *)
Theorem C119_filtered required optional defaults p r : set_parameters required optional defaults p = Ok r ->
  (forall k, In k (map fst r) -> In k ("name" :: "method" :: "default" :: required ++ optional)) /\ (forall k, In k ("name" :: "method" :: "default" :: required) -> In k (map fst r)).
Proof. exact (parameters_filtered required optional defaults p r). Qed.
Print Assumptions C119_filtered.
Example C119_kept_case : set_parameters ["old"; "new"] ["sliced"] [("sliced", Value 1)] [("method", Text "replace"); ("old", Value 0); ("typo", Value 5); ("new", Value 2)] =
  Ok [("method", Text "replace"); ("old", Value 0); ("new", Value 2); ("name", Text "replace"); ("default", NoneValue); ("sliced", Value 1)].
Proof. reflexivity. Qed.
(* a parameter that is missing is MissingParameter, except that a missing method is a KeyError *)
Theorem C119_missing_refuted required optional defaults p :
  (~ In "method" (map fst p) -> set_parameters required optional defaults p = Err KeyError) /\
  (In "method" (map fst p) -> (set_parameters required optional defaults p = Err MissingParameter <-> exists k, In k required /\ ~ In k ("name" :: "default" :: map fst p) /\ ~ In k (map fst defaults))).
Proof. exact (parameters_errors required optional defaults p). Qed.
Print Assumptions C119_missing_refuted.
Example C119_missing_case : set_parameters ["old"] [] [] [("name", Text "a"); ("old", Value 0)] = Err KeyError /\ set_parameters ["old"] [] [] [("method", Text "replace")] = Err MissingParameter.
Proof. split; reflexivity. Qed.

(* the class of a known method, whatever _task is; otherwise _task, which is removed; otherwise an error *)
Theorem C119_known_class p m c : lookup String.eqb "method" p = Some (Text m) -> In (m, c) methods -> task_class p = Ok (Module c, p).
Proof. exact (known_method p m c). Qed.
Print Assumptions C119_known_class.
Theorem C119_unknown_class p : (forall m, lookup String.eqb "method" p = Some (Text m) -> ~ In m (map fst methods)) ->
  (forall c, lookup String.eqb "_task" p = Some (Class c) -> exists q, task_class p = Ok (c, q) /\ forall k, k <> "_task" -> lookup String.eqb k q = lookup String.eqb k p) /\
  (~ In "_task" (map fst p) -> task_class p = Err (UserError 0)).
Proof. exact (unknown_method p). Qed.
Print Assumptions C119_unknown_class.
Example C119_class_case : task_class [("_task", Class ProcessWrap); ("method", Text "xiaedftonx")] = Ok (Module "nxxiaedf", [("_task", Class ProcessWrap); ("method", Text "xiaedftonx")]) /\
  task_class [("method", Text "other"); ("_task", Class ProcessWrap)] = Ok (ProcessWrap, [("method", Text "other")]) /\ task_class [("method", Text "other")] = Err (UserError 0).
Proof. repeat split. Qed.

(* a task needs dependencies or a parent of its output *)
Theorem C119_no_output specs c p q : init specs c false true p = Ok q -> init specs c true false p = Ok q /\ init specs c false false p = Err ValueError.
Proof. exact (no_output specs c p q). Qed.
Print Assumptions C119_no_output.
Example C119_no_output_case : init (fun _ => {| s_required := []; s_optional := []; s_defaults := [] |}) (Module "nxminlog") false true [("method", Text "minlog")] = Ok [("method", Text "minlog"); ("name", Text "minlog"); ("default", NoneValue)].
Proof. reflexivity. Qed.

(* a process of another program becomes a task with its parameters, with the name of the path when it has none *)
Theorem C119_process specs p name path deps : ~ In "method" (map fst p) -> (forall k, In k ["dependencies"; "outputparent"; "_task"] -> ~ In k (map fst p)) ->
  exists q, nxpathtotask specs (Some p) name path deps = Ok (ProcessWrap, q) /\ (forall k, k <> "name" -> lookup String.eqb k q = lookup String.eqb k p) /\
    (In "name" (map fst p) -> lookup String.eqb "name" q = lookup String.eqb "name" p) /\ (~ In "name" (map fst p) -> lookup String.eqb "name" q = Some (Text name)).
Proof. exact (process_wrapped specs p name path deps). Qed.
Print Assumptions C119_process.
Example C119_process_case : nxpathtotask (fun _ => {| s_required := []; s_optional := []; s_defaults := [] |}) (Some [("a", Value 1)]) "process1" NoneValue false = Ok (ProcessWrap, [("a", Value 1); ("name", Text "process1")]).
Proof. reflexivity. Qed.
(* a process with a known method becomes a task of this method *)
Theorem C119_process_known specs p name path deps m c : lookup String.eqb "method" p = Some (Text m) -> In (m, c) methods -> (forall k, In k ["dependencies"; "outputparent"; "_task"] -> ~ In k (map fst p)) ->
  nxpathtotask specs (Some p) name path deps = match set_parameters (s_required (specs c)) (s_optional (specs c)) (s_defaults (specs c)) (("_task", Class ProcessWrap) :: p) with Ok q => Ok (Module c, q) | Err e => Err e end.
Proof. exact (process_known specs p name path deps m c). Qed.
Print Assumptions C119_process_known.
(* a process with a parameter "dependencies", "outputparent" or "_task" cannot *)
Theorem C119_given_twice specs p name path deps k : In k ["dependencies"; "outputparent"; "_task"] -> In k (map fst p) -> nxpathtotask specs (Some p) name path deps = Err TypeError.
Proof. exact (given_twice specs p name path deps k). Qed.
Print Assumptions C119_given_twice.
Example C119_process_known_case : nxpathtotask (fun _ => {| s_required := []; s_optional := []; s_defaults := [] |}) (Some [("method", Text "minlog")]) "process1" NoneValue false =
    Ok (Module "nxminlog", [("method", Text "minlog"); ("name", Text "minlog"); ("default", NoneValue)]) /\
  nxpathtotask (fun _ => {| s_required := []; s_optional := []; s_defaults := [] |}) (Some [("outputparent", Value 1)]) "process1" NoneValue false = Err TypeError.
Proof. split; reflexivity. Qed.
(* no other path can become a task *)
Theorem C119_path_refuted specs name path deps : path <> NoneValue -> nxpathtotask specs None name path deps = Err AttributeError.
Proof. exact (path_wrapped specs name path deps). Qed.
Print Assumptions C119_path_refuted.
Example C119_path_case : nxpathtotask (fun _ => {| s_required := []; s_optional := []; s_defaults := [] |}) None "entry" (Value 1) true = Err AttributeError.
Proof. reflexivity. Qed.

(* replacement of values: all equal ones and no others *)
Theorem C119_replace o new data : List.length (replace o new data) = List.length data /\ forall i x, nth_error data i = Some x ->
  (forall q, o = Number q -> x = Some q -> nth_error (replace o new data) i = Some new) /\ (forall q, o = Number q -> x <> Some q -> nth_error (replace o new data) i = Some x) /\
  (o = NpNan -> x = None -> nth_error (replace o new data) i = Some new) /\ (o = NpNan -> x <> None -> nth_error (replace o new data) i = Some x).
Proof. exact (replaced o new data). Qed.
Print Assumptions C119_replace.
Example C119_replace_case : replace (Number (Qc_of_Z 2)) None [Some (Qc_of_Z 2); None; Some (Qc_of_Z 3)] = [None; None; Some (Qc_of_Z 3)] /\ replace NpNan (Some 0%Qc) [Some 1%Qc; None] = [Some 1%Qc; Some 0%Qc].
Proof. split; reflexivity. Qed.
(* a nan that is not the object np.nan replaces nothing *)
Theorem C119_other_nan_refuted new data : replace OtherNan new data = data.
Proof. exact (other_nan new data). Qed.
Print Assumptions C119_other_nan_refuted.
Example C119_other_nan_case : replace OtherNan (Some 0%Qc) [Some 1%Qc; None] = [Some 1%Qc; None].
Proof. reflexivity. Qed.
