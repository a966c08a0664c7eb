(* Model of src/spectrocrunch/xrf/parse_xia.py: parse_xia_esrf.
   XiaCorrect.parseFiles and correctFiles of PyMca and the globbing of its output are parameters: the parsed files and the files found.
   File names compare as (directory and scan name, detector, scan number, line), the first being represented by its rank. *)
From Verif Require Export ListToolsModel Base.
Local Open Scope list_scope.
Local Open Scope nat_scope.

(* 24-28: [scanname]_xia[xianum]_[scannumber]_0000_[linenumber].edf *)
Record file : Type := { scanname : nat; detector : nat; scannumber : nat; line : nat }.
Definition file_leb (a b : file) : bool :=
  if scanname a <? scanname b then true else if scanname b <? scanname a then false else
  if detector a <? detector b then true else if detector b <? detector a then false else
  if scannumber a <? scannumber b then true else if scannumber b <? scannumber a then false else
  line a <=? line b.
(* a parsed file: None is the statistics file ("st", isStat), getDetector is None for it *)
Inductive xfile : Type := Spectra (f : file) | Stat.
Definition getdetector (x : xfile) : option nat := match x with Spectra f => Some (detector f) | Stat => None end.
Definition excluded (ex : list nat) (x : xfile) : bool :=
  match getdetector x with Some d => existsb (Nat.eqb d) ex | None => false end.
(* 137-143 files per detector: [l[i : i + n] for i in range(0, len(l), n)] *)
Definition group (l : list file) (ndet : nat) : result (list (list file)) :=
  let nf := List.length l in
  let n := nf / ndet in
  if n =? 0 then Err ValueError   (* range() arg 3 must not be zero *)
  else Ok (map (fun k => firstn n (skipn (k * n) l)) (seq 0 ((nf + n - 1) / n))).

(* 10-145. [parsed]: parseFiles; [found add]: the corrected files that are found, summed or not; None: ndet is zero *)
Definition parse_xia (parsed : option (list (list xfile))) (exclude : list nat) (deadtime add willbefitted deadtimeifsingle : bool)
    (found : bool -> list file) : result (list (list file) * list nat) :=
  match parsed with
  | None => Ok ([[]], [])
  | Some xs =>
    let xs := map (filter (fun x => negb (excluded exclude x))) xs in
    let! x0 := (match xs with [] => Err IndexError | x0 :: _ => Ok x0 end) in
    let detnums := flat_map (fun x => match x with Spectra f => [detector f] | Stat => [] end) x0 in
    let ndet := List.length detnums in
    let deadtime := if (ndet <? 2) && negb deadtimeifsingle then false else deadtime in
    let add := if ndet <? 2 then false else add in
    let deadtime := if ndet =? 0 then false else deadtime in
    let willbefitted := if ndet =? 0 then false else willbefitted in
    if negb willbefitted && negb deadtime && negb add then Ok ([[]], detnums)
    else
      let files := if add || deadtime then sorted file_leb (found add)
                   else sorted file_leb (flat_map (flat_map (fun x => match x with Spectra f => [f] | Stat => [] end)) xs) in
      let! out := (if add then Ok [files] else group files ndet) in
      Ok (out, detnums)
  end.
