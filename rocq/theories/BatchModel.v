(* Model of src/spectrocrunch/pipelines/batch.py (which jobs are executed) and run_sequential of pipelines/run.py.
   Parsing of the command line, logging and the text of the list of jobs are left out: a job is its name, a call raises or not. *)
From Verif Require Export Base.
Local Open Scope list_scope.
Local Open Scope nat_scope.

Section Batch.
Context {J : Type} (raises : J -> option exn).
(* the options -n, -l, -j, -a and -b (batch.py 82-90) *)
Record options := { o_number : bool; o_list : bool; o_jobs : list Z; o_a : Z; o_b : Z }.
Inductive printed := PNumber (n : nat) | PList (l : list J).
(* what is printed, the jobs that were called and the exception *)
Record outcome := mkOutcome { r_printed : option printed; r_called : list J; r_error : option exn }.
(* call jobs one after the other *)
Fixpoint call (l : list J) : list J * option exn :=
  match l with
  | [] => ([], None)
  | j :: l' => match raises j with Some e => ([j], Some e) | None => let (c, e) := call l' in (j :: c, e) end
  end.
(* batch.py 114-120: jobs[i - 1], an IndexError is logged *)
Definition pick (jobs : list J) (i : Z) : list J :=
  match py_pos (List.length jobs) (i - 1) with
  | Some k => match nth_error jobs k with Some j => [j] | None => [] end
  | None => []
  end.
(* batch.py 96-123; list + range is a TypeError in Python 3 *)
Definition context (o : options) (jobs : list J) : outcome :=
  if o_number o then mkOutcome (Some (PNumber (List.length jobs))) [] None
  else if o_list o then mkOutcome (Some (PList jobs)) [] None
  else if (match o_jobs o with [] => false | _ => true end || (0 <? o_a o)%Z || (0 <? o_b o)%Z)%bool then
    if ((0 <? o_a o)%Z || (0 <? o_b o)%Z)%bool then mkOutcome None [] (Some TypeError)
    else let (c, e) := call (flat_map (pick jobs) (o_jobs o)) in mkOutcome None c e
  else let (c, e) := call jobs in mkOutcome None c e.
End Batch.
Arguments outcome : clear implicits.
Arguments printed : clear implicits.

(* run.py 8-20 run_sequential: [run before t] is the exception or whether t is done after it ran, given the tasks that ran before *)
Fixpoint run_sequential {T} (run : list T -> T -> result bool) (before tasks : list T) : list T * result bool :=
  match tasks with
  | [] => (before, Ok true)
  | t :: tasks' =>
    match run before t with
    | Err e => (before ++ [t], Err e)
    | Ok false => (before ++ [t], Ok false)
    | Ok true => run_sequential run (before ++ [t]) tasks'
    end
  end.
