(* Model of src/spectrocrunch/process/nxblisspymca.py: fit of the spectra of all detectors and sum of the results.
   A signal is the list of its values (rationals); the fit is a function of configuration and detector that gives the signals by group.
   Files, links, the renaming of outputs and broadcasting of shapes are left out. *)
From Verif Require Export Base QcTac.
From Coq Require Export String.
Local Open Scope string_scope.
Local Open Scope list_scope.
Local Open Scope nat_scope.

Definition signals := list (string * list Qc).
Definition groups := list (string * signals).
(* an item of the previous results: name, type when there is one, values *)
Record item := mkItem { i_name : string; i_type : option string; i_data : list Qc }.
(* 153-169 detectors and counters *)
Definition is_mca (i : item) : bool := match i_type i with Some t => String.eqb t "mca" | None => false end.
Definition detectors (l : list item) : list item := filter is_mca l.
Definition counters (l : list item) : list item := filter (fun i => negb (is_mca i)) l.
(* 53-66: a configuration for each detector *)
Definition configurations {C} (cfgs : list C) (n : nat) : result (list (option C)) :=
  match cfgs with
  | [] => Ok (repeat None n)
  | c :: rest =>
    if n =? List.length cfgs then Ok (map Some cfgs)
    else match rest with [] => Ok (repeat (Some c) n) | _ => Err RuntimeError end
  end.
(* dsetout[()] += dsetin[()]; None: an exception *)
Fixpoint plus (u v : list Qc) : option (list Qc) :=
  match u, v with
  | [], [] => Some []
  | a :: u', b :: v' => match plus u' v' with Some w => Some ((a + b)%Qc :: w) | None => None end
  | _, _ => None
  end.
(* 122-130: exceptions are ignored *)
Definition add_signal (out : groups) (g : string) (sig : string * list Qc) : groups :=
  match lookup String.eqb g out with
  | None => out
  | Some sigs =>
    match lookup String.eqb (fst sig) sigs with
    | None => out
    | Some u => match plus u (snd sig) with
                | Some w => assign String.eqb g (assign String.eqb (fst sig) w sigs) out
                | None => out
                end
    end
  end.
(* 116-130: add the results of another detector *)
Definition add_detector (names : list string) (out : groups) (d : groups) : groups :=
  fold_left (fun out g => match lookup String.eqb g d with
                          | None => out
                          | Some sigs => fold_left (fun out sig => add_signal out g sig) sigs out
                          end) names out.
(* 104-114: the results of the first detector *)
Definition first_detector (names : list string) (d : groups) : groups :=
  flat_map (fun g => match lookup String.eqb g d with Some sigs => [(g, sigs)] | None => [] end) names.
Definition merge (names : list string) (l : list groups) : result groups :=
  match l with [] => Err IndexError | d :: l => Ok (fold_left (add_detector names) l (first_detector names d)) end.
(* 44-130 _execute; the dependency is one blissmcapre task. Counters of different shapes: io/nxfs.py 821-843 add_signal (ValueError stands for NexusFormatException) *)
Definition execute {C} (fit : C -> item -> groups) (cfgs : list C) (l : list item) : result groups :=
  match detectors l with
  | [] => Err RuntimeError
  | dets =>
    let! cs := configurations cfgs (List.length dets) in
    let fits := map (fun cd => match fst cd with Some c => fit c (snd cd) | None => [] end) (combine cs dets) in
    match counters l with
    | [] => merge ["parameters"; "massfractions"] fits
    | (k0 :: _) as k =>
      if negb (forallb (fun i => List.length (i_data i) =? List.length (i_data k0)) k) then Err ValueError else
      merge ["parameters"; "massfractions"; "counters"] (map (fun f => f ++ [("counters", map (fun i => (i_name i, i_data i)) k)]) fits)
    end
  end.
