(* Model of src/spectrocrunch/process/nxblissmcapre.py: preparation of XRF spectra.
   A detector is a name with its counts by pixel and channel and its counters; numbers are rationals, None is inf or nan.
   Pixels and channels are numbered (the blocks of slice_generator are sets of them); rounding of floats is left out.
   Files, links and types of groups are left out: an output is a name with its values. *)
From Verif Require Export Base QcTac.
From Coq Require Export String Qround.
Local Open Scope string_scope.
Local Open Scope list_scope.
Local Open Scope nat_scope.

(* 62-70 _matching_names; [matches] is pattern.match(name) *)
Definition matching_names (matches : string -> string -> bool) (names patterns : list string) : list string :=
  flat_map (fun p => filter (matches p) names) patterns.

Definition num := option Qc.
Definition div (x y : num) : num :=
  match x, y with Some a, Some b => if Qc_eqb b 0 then None else Some (a / b)%Qc | _, _ => None end.
Definition add (x y : num) : num := match x, y with Some a, Some b => Some (a + b)%Qc | _, _ => None end.
(* the counters of a detector, by pixel, when they are there *)
Record detector := { d_data : nat -> nat -> Qc; d_live_time : option (nat -> Qc); d_output_live_time : option (nat -> Qc);
                     d_events : option (nat -> Qc); d_trigger_count_rate : option (nat -> Qc) }.
(* 127-145 _open_livetime: trigger_count_rate is det["events"] *)
Definition livetime (d : detector) : result (nat -> num) :=
  match d_live_time d with
  | Some lt => Ok (fun p => Some (lt p))
  | None => match d_output_live_time d with
            | Some lt => Ok (fun p => Some (lt p))
            | None => match d_events d with
                      | Some ev => Ok (fun p => div (Some (ev p)) (Some (ev p)))
                      | None => Err RuntimeError
                      end
            end
  end.
(* a value stored in a dataset of integers or of floats *)
Definition store (integer : bool) (x : num) : num :=
  match x with
  | Some q => if integer then Some (if Qc_ltb q 0 then - Qc_of_Z (Qfloor (this (- q))) else Qc_of_Z (Qfloor (this q)))%Qc else x
  | None => None
  end.
(* dset[idx] * preset_time / lt[idxlt][..., newaxis] *)
Definition corrected (preset : Qc) (data : nat -> nat -> Qc) (lt : nat -> num) (p c : nat) : num := div (Some (data p c * preset)%Qc) (lt p).
Definition image := nat -> nat -> num.
(* result[idx] = f; a block is the set of its elements *)
Definition put (integer : bool) (block : nat -> nat -> bool) (f : image) (r : image) : image :=
  fun p c => if block p c then store integer (f p c) else r p c.
Definition empty : image := fun _ _ => Some 0%Qc.
(* 72-104 _mca_add; [integer]: the type of live time times preset time; the names of [dets] exist *)
Definition mca_add (integer : bool) (preset : Qc) (blocks : list (nat -> nat -> bool)) (dets : list detector) : result image :=
  let! lts := mapM livetime dets in
  match combine (map d_data dets) lts with
  | [] => Err IndexError
  | (data, lt) :: l =>
    Ok (fold_left (fun r block =>
      fold_left (fun r dl => put integer block (fun p c => add (r p c) (corrected preset (fst dl) (snd dl) p c)) r) l
                (put integer block (corrected preset data lt) r)) blocks empty)
  end.
(* 155-159 _mca_nxdetector: an output with a new name; io/h5fs.py 662-690 link, h5py raises when the name exists (ValueError here, the type depends on its version) *)
Definition new_output {A} (out : list (string * A)) (name : string) (x : A) : result (list (string * A)) :=
  if mem String.eqb name out then Err ValueError else Ok (out ++ [(name, x)]).
(* 106-125 _mca_dtcor *)
Definition dtcor_one (integer : bool) (preset : Qc) (blocks : list (nat -> nat -> bool)) (d : detector) : result image :=
  let! lt := livetime d in Ok (fold_left (fun r block => put integer block (corrected preset (d_data d) lt) r) blocks empty).
Fixpoint mca_dtcor (integer : bool) (preset : Qc) (blocks : list (nat -> nat -> bool)) (suffix : string) (dets : list (string * detector)) (out : list (string * image)) : result (list (string * image)) :=
  match dets with
  | [] => Ok out
  | (name, d) :: dets' =>
    let! x := dtcor_one integer preset blocks d in
    let! out := new_output out (String.append name suffix) x in
    mca_dtcor integer preset blocks suffix dets' out
  end.
(* 147-153 _mca_link *)
Fixpoint mca_link (suffix : string) (dets : list (string * detector)) (out : list (string * image)) : result (list (string * image)) :=
  match dets with
  | [] => Ok out
  | (_, d) :: dets' =>
    let! out := new_output out (String.append "mca" suffix) (fun p c => Some (d_data d p c)) in
    mca_link suffix dets' out
  end.
(* 26-60 _execute: the spectra; [dets] are the matching detectors, the dependency is one entry *)
Definition execute (add dtcor integer : bool) (preset : Qc) (blocks : list (nat -> nat -> bool)) (suffix : string) (dets : list (string * detector)) : result (list (string * image)) :=
  match dets with
  | [] => Err RuntimeError
  | _ =>
    if add then
      if dtcor then let! x := mca_add integer preset blocks (map snd dets) in Ok [(String.append "mca" suffix, x)]
      else Err AssertionError
    else if dtcor then mca_dtcor integer preset blocks suffix dets []
    else mca_link suffix dets []
  end.
(* 161-190 _add_counters: the output of a counter; the parts of its name *)
Definition counter_output (parts : list string) : result string :=
  match parts with [a] => Ok a | [_; b] => Ok b | _ => Err ValueError end.
