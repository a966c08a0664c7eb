(* Model of src/spectrocrunch/process/nxpymca.py: detectors and groups of detectors, their sums and corrections after fitting, the order of the
   images and the export of the results. *)
From Verif Require Export NxlazyModel.
From Verif Require Text ListToolsModel.
Local Open Scope list_scope.
Local Open Scope nat_scope.

(* process/nxresult.py:7-76 Group of the detectors and counters used here; equality of names is modelled in GroupModel.v *)
Inductive key : Type := Counters | Det (n : Z) | Sums (n : Z).
Definition key_eqb (a b : key) : bool :=
  match a, b with Counters, Counters => true | Det n, Det m | Sums n, Sums m => (n =? m)%Z | _, _ => false end.
Definition isdetector (k : key) : bool := match k with Counters => false | _ => true end.
Definition issum (k : key) : bool := match k with Sums _ => true | _ => false end.
Definition number (k : key) : Z := match k with Counters => (-1)%Z | Det n | Sums n => n end.

(* include_detectors: numbers, labels of sums like "S0", or lists of them; [DBad] is the text "S", of which Group raises a ValueError *)
Inductive det : Type := DNum (n : Z) | DSum (n : Z) | DBad.
Definition det_eqb (a b : det) : bool := match a, b with DNum n, DNum m | DSum n, DSum m => (n =? m)%Z | DBad, DBad => true | _, _ => false end.
Definition group_of (d : det) : result key := match d with DNum n => Ok (Det n) | DSum n => Ok (Sums n) | DBad => Err ValueError end.
Inductive item : Type := IDet (d : det) | IList (l : list det).
(* utils/listtools.py:9-31 flatten *)
Definition flat (l : list item) : list det := flat_map (fun i => match i with IDet d => [d] | IList l => l end) l.
(* utils/listtools.py:177-181 aslist: the list of text is the list of its characters *)
Definition aslist (i : item) : list det :=
  match i with
  | IList l => l
  | IDet (DSum n) => DBad :: map (fun c => DNum (Text.digit_val c)) (Text.str_int n)
  | IDet d => [d]
  end.
Fixpoint zmax (l : list Z) : option Z := match l with [] => None | x :: l' => match zmax l' with None => Some x | Some y => Some (Z.max x y) end end.

Record plan : Type := Plan {
  groups : list (key * list det);      (* _detector_groups *)
  addspectra : bool;
  tofit : list key;                    (* _detectors_to_fit *)
  sumto : list (key * key) }.          (* _detectors_sumto *)
Definition enumerated (l : list item) : list (key * list det) := map (fun p => (Sums (Z.of_nat (fst p)), aslist (snd p))) (combine (seq 1 (List.length l)) l).
Fixpoint assign_all (dest : key) (l : list key) (s : list (key * key)) : list (key * key) :=
  match l with [] => s | k :: l' => assign_all dest l' (assign key_eqb k dest s) end.
Fixpoint to_groups (g : list (key * list det)) (s : list (key * key)) : result (list (key * key)) :=
  match g with
  | [] => Ok s
  | (dest, l) :: g' => let! ks := mapM group_of l in to_groups g' (assign_all dest ks s)
  end.
(* nxpymca.py:180-258 _prepare_adddetector; present: sorted(detectors_used), given include_detectors and exclude_detectors *)
Definition prepare (include : list item) (present : list det) (add beforefit : bool) : result plan :=
  let used := match flat include with [] => present | l => filter (fun d => existsb (det_eqb d) present) l end in
  let! gs :=
    if existsb (fun i => 1 <? List.length (aslist i)) include then Ok (enumerated include)
    else
      let! ks := mapM group_of used in
      let num := match zmax (map number (filter issum ks)) with Some m => (m + 1)%Z | None => 1%Z end in
      Ok [(Sums num, used)] in
  let adddetectors := (1 <? List.length used) && add in
  let adddetectorgroups := 1 <? List.length gs in
  let spectra := (adddetectors || adddetectorgroups) && beforefit in
  let! fit := if spectra then Ok (map fst gs) else mapM group_of used in
  let! s := if adddetectorgroups || adddetectors then to_groups gs [] else Ok [] in
  let! s :=
    if adddetectorgroups && adddetectors then
      match zmax (map (fun x => number (fst x)) s) with
      | None => Err ValueError
      | Some m => Ok (assign_all (Sums (m + 1)) (map fst gs) s)
      end
    else Ok s in
  Ok (Plan gs spectra fit s).

(* results: group, name of the result, one lazy expression per image *)
Section Stacks.
Variable A : Type.
Definition stacks : Type := list (key * list (string * list (arg A))).

Fixpoint contains (p s : string) : bool :=
  if String.prefix p s then true else match s with EmptyString => false | String _ s' => contains p s' end.
(* 759-771 _group_add_detectors *)
Definition func_of (counters : list string) (k : string) : fn :=
  if existsb (String.eqb k) counters then Fsum
  else if String.prefix "w" k then Fnanmean
  else if contains "chisq" k then Fnanmax
  else Fsum.
Definition append_to (d a : arg A) : result (arg A) := match d with Slice f l => Ok (appendarg f l a) | Leaf _ => Err AttributeError end.
(* 754-755 *)
Fixpoint append_list (ds args : list (arg A)) : result (list (arg A)) :=
  match args, ds with
  | [], _ => Ok ds
  | _ :: _, [] => Err IndexError
  | a :: args', d :: ds' => let! d' := append_to d a in let! r := append_list ds' args' in Ok (d' :: r)
  end.
(* 743-755: labels of the destination *)
Definition add_label (counters : list string) (n : nat) (fixed : list string) (labels : list (string * list (arg A))) (ka : string * list (arg A)) : result (list (string * list (arg A))) :=
  let '(k, args) := ka in
  if existsb (String.eqb k) fixed then Ok labels
  else
    let cur := match lookup String.eqb k labels with Some c => c | None => repeat (Slice (func_of counters k) []) n end in
    let! new := append_list cur args in
    Ok (assign String.eqb k new labels).
Fixpoint add_labels (counters : list string) (n : nat) (fixed : list string) (labels : list (string * list (arg A))) (l : list (string * list (arg A))) : result (list (string * list (arg A))) :=
  match l with
  | [] => Ok labels
  | ka :: l' => let! labels' := add_label counters n fixed labels ka in add_labels counters n fixed labels' l'
  end.
(* 728-757 _add_detectors: the loop over the detectors *)
Definition add_one (counters : list string) (n : nat) (st : stacks * list (key * list string)) (kd : key * key) : result (stacks * list (key * list string)) :=
  let '(s, fixed) := st in
  let '(k1, dest) := kd in
  match lookup key_eqb k1 s with
  | None => Ok st
  | Some l =>
      let labels := match lookup key_eqb dest s with Some d => d | None => [] end in
      let s := match lookup key_eqb dest s with Some _ => s | None => assign key_eqb dest [] s end in
      let fx := match lookup key_eqb dest fixed with Some x => x | None => map fst labels end in
      let! labels' := add_labels counters n fx labels l in
      Ok (remove_key key_eqb k1 (assign key_eqb dest labels' s), assign key_eqb dest fx fixed)
  end.
Fixpoint add_all (counters : list string) (n : nat) (st : stacks * list (key * list string)) (l : list (key * key)) : result (stacks * list (key * list string)) :=
  match l with
  | [] => Ok st
  | kd :: l' => let! st' := add_one counters n st kd in add_all counters n st' l'
  end.
Definition add_detectors (counters : list string) (n : nat) (s : stacks) (l : list (key * key)) : result stacks :=
  let! st := add_all counters n (s, []) l in Ok (fst st).

(* 773-818 _apply_postcorrect_xrf: xrfnorm around all results of the fits *)
Definition correct_one (flux : bool) (dt : option Z) (p : nat * arg A) : arg A := Slice (Fnorm (fst p) flux dt) [snd p].
Definition correct_label (counters : list string) (flux : bool) (dt : option Z) (ka : string * list (arg A)) : string * list (arg A) :=
  if existsb (String.eqb (fst ka)) counters then ka
  else (fst ka, map (correct_one flux dt) (combine (seq 0 (List.length (snd ka))) (snd ka))).
Definition postcorrect_xrf (counters : list string) (flux dtcor : bool) (s : stacks) : stacks :=
  map (fun g => if isdetector (fst g)
                then (fst g, map (correct_label counters flux (if dtcor && negb (issum (fst g)) then Some (number (fst g)) else None)) (snd g))
                else g) s.
(* 715-726 _postcorrect *)
Definition postcorrect (counters : list string) (n : nat) (flux dtcor : bool) (l : list (key * key)) (s : stacks) : result stacks :=
  let s := postcorrect_xrf counters flux dtcor s in
  match l with [] => Ok s | _ => add_detectors counters n s l end.

(* 820-832 _sort_stacks: stable order of the values of the stack axis *)
Definition order (values : list Qc) : list nat :=
  map fst (ListToolsModel.sorted (fun a b => Qc_leb (snd a) (snd b)) (combine (seq 0 (List.length values)) values)).
Definition pick {B} (ind : list nat) (l : list B) : result (list B) :=
  mapM (fun i => match nth_error l i with Some x => Ok x | None => Err IndexError end) ind.
Definition sort_group (ind : list nat) (g : key * list (string * list (arg A))) : result (key * list (string * list (arg A))) :=
  let! l := mapM (fun ka => let! a := pick ind (snd ka) in Ok (fst ka, a)) (snd g) in Ok (fst g, l).
Definition sort_stacks (values : list Qc) (s : stacks) : result (list Qc * stacks) :=
  let ind := order values in
  let! v := pick ind values in
  let! s := mapM (sort_group ind) s in
  Ok (v, s).
End Stacks.
Arguments append_to {A}. Arguments append_list {A}. Arguments add_label {A}. Arguments add_labels {A}. Arguments add_one {A}. Arguments add_all {A}.
Arguments add_detectors {A}. Arguments correct_one {A}. Arguments correct_label {A}. Arguments postcorrect_xrf {A}. Arguments postcorrect {A}.
Arguments sort_group {A}. Arguments sort_stacks {A}.

(* export *)
Section Export.
Variable F : Type.
(* the arguments: files, and datasets of which the slice with the index of the image is read (nxlazy.py:171-184) *)
Inductive source : Type := File (f : F) | Data (k : key) (l : string).
Definition saved : Type := list ((key * string) * list num).
Definition data_eqb (a b : key * string) : bool := key_eqb (fst a) (fst b) && String.eqb (snd a) (snd b).
Variable file : F -> result num.
Variable fluxref : nat -> result num.
Variable fluxdata : key * string.
Variable dtcor : nat -> Z -> num.
Variable other : nat -> list num -> result num.
Definition dataset (d : saved) (j : nat) (p : key * string) : result num :=
  match lookup data_eqb p d with
  | Some l => match nth_error l j with Some x => Ok x | None => Err IndexError end
  | None => Err KeyError
  end.
Definition read (d : saved) (j : nat) (x : source) : result num := match x with File f => file f | Data k l => dataset d j (k, l) end.
Definition value_at (d : saved) (j : nat) (a : arg source) : result num :=
  eval source (read d j) fluxref (fun _ => dataset d j fluxdata) dtcor other a.
(* 834-890 _exportgroups: the datasets of a group in order, the groups in order *)
Definition export_label (k : key) (d : saved) (ka : string * list (arg source)) : result saved :=
  let! l := mapM (fun p => value_at d (fst p) (snd p)) (combine (seq 0 (List.length (snd ka))) (snd ka)) in
  Ok (assign data_eqb (k, fst ka) l d).
Fixpoint export_labels (k : key) (d : saved) (l : list (string * list (arg source))) : result saved :=
  match l with [] => Ok d | ka :: l' => let! d' := export_label k d ka in export_labels k d' l' end.
Fixpoint export (d : saved) (s : stacks source) : result saved :=
  match s with [] => Ok d | g :: s' => let! d' := export_labels (fst g) d (snd g) in export d' s' end.
End Export.
Arguments File {F}. Arguments Data {F}.

(* 865-875: the first image determines the number of rows *)
Definition fit_rows {B} (zero : B) (n : nat) (rows : list B) : list B :=
  if List.length rows <? n then rows ++ repeat zero (n - List.length rows)
  else if n <? List.length rows then firstn n rows
  else rows.
