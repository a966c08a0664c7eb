(* Model of src/spectrocrunch/io/spec.py 160-559: cmd_parser. The patterns are words separated by \s+; re.match with its backtracking is
   the list of all matches in the order in which they are tried. Numbers are exact. Characters are ASCII. *)
From Coq Require Import String QArith Qcanon.
From Verif Require Export Base Text QcTac.
Local Open Scope nat_scope.

(* \s of a str pattern *)
Definition is_blank (c : ascii) : bool := existsb (Nat.eqb (nat_of_ascii c)) [9; 10; 11; 12; 13; 28; 29; 30; 31; 32].
(* [a-zA-Z] *)
Definition is_letter (c : ascii) : bool :=
  let n := nat_of_ascii c in ((65 <=? n) && (n <=? 90)) || ((97 <=? n) && (n <=? 122)).
Definition is_letter_num (c : ascii) : bool := is_letter c || digit c.

(* ---- re ---- *)
(* p* : what is matched and what remains, longest first *)
Fixpoint stars (p : ascii -> bool) (s : chars) : list (chars * chars) :=
  match s with
  | c :: r => if p c then map (fun m => (c :: fst m, snd m)) (stars p r) ++ [([], s)] else [([], s)]
  | [] => [([], [])]
  end.
(* p+ *)
Definition plus1 (p : ascii -> bool) (s : chars) : list (chars * chars) :=
  match s with
  | c :: r => if p c then map (fun m => (c :: fst m, snd m)) (stars p r) else []
  | [] => []
  end.
(* p? *)
Definition maybe (p : ascii -> bool) (s : chars) : list (chars * chars) :=
  match s with
  | c :: r => if p c then [([c], r); ([], s)] else [([], s)]
  | [] => [([], [])]
  end.
(* one expression after another *)
Definition seq2 (f g : chars -> list (chars * chars)) (s : chars) : list (chars * chars) :=
  flat_map (fun m => map (fun n => (fst m ++ fst n, snd n)) (g (snd m))) (f s).
Definition is_sign (c : ascii) : bool := ascii_eqb c (ch 43) || ascii_eqb c (ch 45).
Definition is_point (c : ascii) : bool := ascii_eqb c (ch 46).
(* (?:[+-]?[0-9]*\.?[0-9]+) *)
Definition fnumber (s : chars) : list (chars * chars) :=
  seq2 (maybe is_sign) (seq2 (stars digit) (seq2 (maybe is_point) (plus1 digit))) s.
Inductive tok : Type := TWord (w : chars) | TMotor | TMotornum | TInt | TFloat.
(* 161-166 *)
Definition alts (t : tok) (s : chars) : list (chars * chars) :=
  match t with
  | TWord w => match starts w s with Some r => [(w, r)] | None => [] end
  | TMotor => plus1 is_letter s
  | TMotornum => plus1 is_letter_num s
  | TInt => plus1 digit s
  | TFloat => fnumber s
  end.
(* named groups separated by \s+; the key "" is for a word that is not a group *)
Definition pattern : Type := list (chars * tok).
Fixpoint matches (p : pattern) (s : chars) : list (list (chars * chars)) :=
  match p with
  | [] => [[]]
  | [(k, t)] => map (fun m => [(k, fst m)]) (alts t s)
  | (k, t) :: p' => flat_map (fun m => flat_map (fun b => map (cons (k, fst m)) (matches p' (snd b))) (plus1 is_blank (snd m))) (alts t s)
  end.
Definition first_match (p : pattern) (s : chars) : option (list (chars * chars)) := hd_error (matches p s).
(* 189-194 *)
Fixpoint match_any (ps : list pattern) (s : chars) : option (list (chars * chars)) :=
  match ps with
  | [] => None
  | p :: ps' => match first_match p s with Some m => Some m | None => match_any ps' s end
  end.

(* ---- values ---- *)
Inductive field : Type := FText (w : chars) | FNum (x : Qc) | FInt (n : Z) | FMs (x : Qc) | FSec (x : Qc).
Definition dict : Type := list (chars * field).
Definition unknown : dict := [(txt "name", FText (txt "unknown"))].
(* float(text) for a text that matches fnumber *)
Fixpoint split_point (s : chars) : chars * chars :=
  match s with
  | c :: r => if is_point c then ([], r) else let (a, b) := split_point r in (c :: a, b)
  | [] => ([], [])
  end.
Definition unsigned_of (s : chars) : Qc :=
  let (a, b) := split_point s in (Qc_of_Z (int_of (a ++ b)) / Qc_of_Z (10 ^ Z.of_nat (length b)))%Qc.
Definition float_of (s : chars) : Qc :=
  match s with
  | c :: r => if is_sign c then (if ascii_eqb c (ch 45) then - unsigned_of r else unsigned_of r)%Qc else unsigned_of s
  | [] => 0%Qc
  end.
Inductive cast : Type := CText | CFloat | CInt | CMs | CSec.
Definition apply_cast (c : cast) (w : chars) : field :=
  match c with CText => FText w | CFloat => FNum (float_of w) | CInt => FInt (int_of w) | CMs => FMs (float_of w) | CSec => FSec (float_of w) end.
(* the cast functions: result[key] = ..., all keys are in the groups *)
Definition casts (table : list (chars * cast)) (m : option (list (chars * chars))) : dict :=
  match m with
  | None => unknown
  | Some g => flat_map (fun e => match lookup chars_eqb (fst e) table with Some c => [(fst e, apply_cast c (snd e))] | None => [] end) g
  end.
Definition kname := txt "name". Definition kmotfast := txt "motfast". Definition kstartfast := txt "startfast". Definition kendfast := txt "endfast".
Definition knpixelsfast := txt "npixelsfast". Definition knstepsfast := txt "nstepsfast". Definition kmotslow := txt "motslow".
Definition kstartslow := txt "startslow". Definition kendslow := txt "endslow". Definition knstepsslow := txt "nstepsslow".
Definition ktime := txt "time". Definition krepeats := txt "repeats".

(* 196-268 *)
Definition patternzapimage (name : chars) : list pattern :=
  [ [(kname, TWord name); (kmotfast, TMotor); (kstartfast, TFloat); (kendfast, TFloat); (knpixelsfast, TInt); (ktime, TInt);
     (kmotslow, TMotor); (kstartslow, TFloat); (kendslow, TFloat); (knstepsslow, TInt)];
    [(kname, TWord name); (kmotfast, TMotor); (kstartfast, TFloat); (kendfast, TFloat); (knpixelsfast, TInt);
     (kmotslow, TMotor); (kstartslow, TFloat); (kendslow, TFloat); (knstepsslow, TInt); (ktime, TInt)] ].
(* 270-288 *)
Definition castzapimage : option (list (chars * chars)) -> dict := casts
  [(kname, CText); (kmotfast, CText); (kstartfast, CFloat); (kendfast, CFloat); (knpixelsfast, CInt);
   (kmotslow, CText); (kstartslow, CFloat); (kendslow, CFloat); (knstepsslow, CInt); (ktime, CMs)].
(* 290-328 *)
Definition patternpuzzle (name : chars) : list pattern :=
  [ [(kname, TWord name); (kmotfast, TMotornum); (kstartfast, TFloat); (kendfast, TFloat); (knpixelsfast, TInt);
     (kmotslow, TMotornum); (kstartslow, TFloat); (kendslow, TFloat); (knstepsslow, TInt); (ktime, TInt)] ].
Definition castpuzzle := castzapimage.
(* 330-385 *)
Definition patternmesh (name : chars) : list pattern :=
  [ [(kname, TWord name); (kmotfast, TMotor); (kstartfast, TFloat); (kendfast, TFloat); (knstepsfast, TInt);
     (kmotslow, TMotor); (kstartslow, TFloat); (kendslow, TFloat); (knstepsslow, TInt); (ktime, TFloat)] ].
Definition castmesh : option (list (chars * chars)) -> dict := casts
  [(kname, CText); (kmotfast, CText); (kstartfast, CFloat); (kendfast, CFloat); (knstepsfast, CInt);
   (kmotslow, CText); (kstartslow, CFloat); (kendslow, CFloat); (knstepsslow, CInt); (ktime, CSec)].
(* 387-432 *)
Definition patternzapenergy (name : chars) : list pattern :=
  [ [(kname, TWord name); ([], TWord (txt "SUM")); (krepeats, TInt); (ktime, TFloat)];
    [(kname, TWord name); ([], TWord (txt "SUM2")); (krepeats, TInt); (ktime, TFloat)] ].
Definition castzapenergy : option (list (chars * chars)) -> dict := casts [(kname, CText); (krepeats, CInt); (ktime, CMs)].
(* 434-471 *)
Definition patternzapline (name : chars) : list pattern :=
  [ [(kname, TWord name); (kmotfast, TMotor); (kstartfast, TFloat); (kendfast, TFloat); (knpixelsfast, TInt); (ktime, TFloat)] ].
Definition castzapline : option (list (chars * chars)) -> dict := casts
  [(kname, CText); (kmotfast, CText); (kstartfast, CFloat); (kendfast, CFloat); (knpixelsfast, CInt); (ktime, CMs)].
(* 473-511 *)
Definition patternascan (name : chars) : list pattern :=
  [ [(kname, TWord name); (kmotfast, TMotor); (kstartfast, TFloat); (kendfast, TFloat); (knstepsfast, TInt); (ktime, TFloat)] ].
Definition castascan : option (list (chars * chars)) -> dict := casts
  [(kname, CText); (kmotfast, CText); (kstartfast, CFloat); (kendfast, CFloat); (knstepsfast, CInt); (ktime, CSec)].

(* 513-544 *)
Definition parsezapimage (cmd : chars) : dict := castzapimage (match_any (patternzapimage (txt "zapimage")) cmd).
Definition parsepuzzle (cmd : chars) : dict := castpuzzle (match_any (patternpuzzle (txt "puzzle")) cmd).
Definition parsemesh (cmd : chars) : dict := castmesh (match_any (patternmesh (txt "mesh")) cmd).
Definition parsezapenergy (cmd : chars) : dict := castzapenergy (match_any (patternzapenergy (txt "zapenergy")) cmd).
Definition parsezapline (cmd : chars) : dict := castzapline (match_any (patternzapline (txt "zapline")) cmd).
Definition parseascan (cmd : chars) : dict := castascan (match_any (patternascan (txt "ascan")) cmd).
(* cmd.split(" ")[0] *)
Fixpoint first_word (s : chars) : chars :=
  match s with c :: r => if ascii_eqb c (ch 32) then [] else c :: first_word r | [] => [] end.
(* 171-187 *)
Definition parse (cmd : chars) : dict :=
  let scanname := first_word cmd in
  if chars_eqb scanname (txt "zapimage") then parsezapimage cmd
  else if chars_eqb scanname (txt "ascan") then parseascan cmd
  else if chars_eqb scanname (txt "zapline") then parsezapline cmd
  else if chars_eqb scanname (txt "zapenergy") then parsezapenergy cmd
  else if chars_eqb scanname (txt "mesh") then parsemesh cmd
  else if chars_eqb scanname (txt "puzzle") then parsepuzzle cmd
  else unknown.
