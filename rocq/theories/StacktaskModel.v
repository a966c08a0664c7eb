(* Model of src/spectrocrunch/process/nxmerge.py, nxstack.py and the parameters of nxalign.py.
   NXdata groups and entries are values; reading and writing of files and the merging of datasets (process/h5merge.py, modelled in MergeModel) are not modelled here. *)
From Verif Require Export ListToolsModel Base QcTac AxisModel.
From Coq Require Export String.
Local Open Scope string_scope.
Local Open Scope list_scope.
Local Open Scope nat_scope.

(* ---- nxmerge.py ---- *)
(* 15-23 _stack_sources: the NXdata groups (name and group) of each previous task *)
Definition add_source {D} (groups : list (string * list D)) (x : string * D) : list (string * list D) :=
  match lookup String.eqb (fst x) groups with
  | None => assign String.eqb (fst x) [snd x] groups
  | Some l => assign String.eqb (fst x) (l ++ [snd x]) groups
  end.
Definition stack_sources {D} (outputs : list (list (string * D))) : list (string * list D) := fold_left add_source (List.concat outputs) [].
(* int(parts[k]); [int] gives None for a text that is not an integer *)
Definition part_int (int : string -> option Z) (parts : list string) (k : nat) : result Z :=
  match nth_error parts k with None => Err IndexError | Some s => match int s with None => Err ValueError | Some z => Ok z end end.
(* 29-43 _shape_parser on the words of the title *)
Definition shape_parser (int : string -> option Z) (parts : list string) : result (option (Z * Z)) :=
  match parts with
  | [] => Err IndexError
  | cmd :: _ =>
    if String.eqb cmd "fscan2d" then
      let! a := part_int int parts 8 in let! b := part_int int parts 4 in Ok (Some (a, b))
    else if String.eqb cmd "l2scan" then
      let! a := part_int int parts 4 in let! b := part_int int parts 8 in Ok (Some (a, (b + 1)%Z))
    else
      match (let! a := part_int int parts 4 in let! b := part_int int parts 8 in Ok ((a + 1)%Z, (b + 1)%Z)) with
      | Ok s => Ok (Some s)
      | Err _ => Ok None
      end
  end.
(* 45-57 _iter_nxentry_dependencies: a dependency is a task with its dependencies or a path, [true] for an NXentry *)
Inductive dep (E : Type) : Type := DTask (deps : list (dep E)) | DPath (isentry : bool) (e : E).
Arguments DTask {E} deps.
Arguments DPath {E} isentry e.
Fixpoint entries {E} (d : dep E) : list E :=
  match d with
  | DTask ds => flat_map entries ds
  | DPath b e => if b then [e] else []
  end.
(* 25-27 _scan_shape: of the first entry; [title] gives the words of its title *)
Definition scan_shape {E} (int : string -> option Z) (title : E -> list string) (task : dep E) : result (option (Z * Z)) :=
  match entries task with [] => Ok None | e :: _ => shape_parser int (title e) end.

(* ---- nxstack.py ---- *)
(* np.argsort for values without ties (with ties: stable) *)
Definition argsort (l : list Qc) : list nat := map snd (sorted (fun a b => Qc_leb (fst a) (fst b)) (combine l (seq 0 (List.length l)))).
Definition take {A} (l : list A) (idx : list nat) : result (list A) := mapM (fun i => match nth_error l i with Some x => Ok x | None => Err IndexError end) idx.
(* not np.isnan(stack_axis).any() *)
Fixpoint numbers (l : list (option Qc)) : option (list Qc) :=
  match l with
  | [] => Some []
  | Some x :: l' => match numbers l' with Some r => Some (x :: r) | None => None end
  | None :: _ => None
  end.
(* 32-39: the positions and the groups in their order *)
Definition order {D} (stack_axis : list (option Qc)) (groups : list (string * list D)) : result (list (option Qc) * list (string * list D)) :=
  match numbers stack_axis with
  | None => Ok (stack_axis, groups)
  | Some l =>
    let idx := argsort l in
    let! gs := mapM (fun g => let! s := take (snd g) idx in Ok (fst g, s)) groups in
    let! ax := take stack_axis idx in
    Ok (ax, gs)
  end.
(* 19-64 _execute: the groups that are stacked, whether a stack dimension is made, and the sizes of the axes.
   [shape]: the parameter with this name; [positioner]: the values of the stack positioner when it is given (nan when missing);
   [parsed]: _scan_shape; [datashape]: the shape of an NXdata group *)
Definition execute {D} (shape : option (Z * Z)) (positioner : option (list (option Qc))) (parsed : result (option (Z * Z))) (datashape : D -> Z * Z) (groups : list (string * list D))
    : result (list (string * list D * bool) * list Z) :=
  let! parsed := parsed in
  let! scan := (match parsed with
                | Some s => Ok s
                | None => match lookup String.eqb "parameters" groups with
                          | None => Err KeyError
                          | Some [] => Err IndexError
                          | Some (d :: _) => Ok (datashape d)
                          end
                end) in
  let! (stack, groups) := (match positioner with
                           | None => Ok (None, groups)
                           | Some axis => let! (axis, gs) := order axis groups in Ok (Some axis, gs)
                           end) in
  let axes := match stack with Some l => [Z.of_nat (List.length l)] | None => [] end ++ [snd scan; fst scan] in
  Ok (map (fun g => (g, negb ((List.length (snd g) =? 1) && match stack with None => true | Some _ => false end))) groups, axes).
(* h5merge.py:88-145 shape of the stacked scan of n sources *)
Definition merged_shape (n : nat) (stacked : bool) (scan : Z * Z) : list Z := (if stacked then [Z.of_nat n] else []) ++ [snd scan; fst scan].

(* ---- nxalign.py ---- *)
Inductive reference : Type := RName (s : string) | RInt (z : Z) | RPairwise | RFraction (q : Qc).
(* 113-133 _prepare_reference for a stack of n images *)
Definition prepare_reference (n : nat) (r : reference) : result (option Z) :=
  match r with
  | RName s =>
    if String.eqb s "first" then Ok (Some 0%Z)
    else if String.eqb s "last" then Ok (Some (-1)%Z)
    else if String.eqb s "middle" then Ok (Some (Z.of_nat n / 2)%Z)
    else Err ValueError   (* ParameterError *)
  | RInt z => Ok (Some z)
  | RPairwise => Ok None
  | RFraction q => Ok (Some (round_even (q * Qc_of_Z (Z.of_nat n))%Qc))
  end.
(* 71-85 rawcalc *)
Definition rawcalc (multiplier offset : option Qc) : option (Qc -> Qc) :=
  match multiplier, offset with
  | None, None => None
  | _, _ => Some (fun x => (match multiplier with Some m => m | None => 1 end * x + match offset with Some o => o | None => 0 end)%Qc)
  end.
