(* Model of src/spectrocrunch/io/xiaedf.py, the names of XIA files (21-135, 175-197), the
   selection of detectors (270-415) and the grouping of files (418-575).
   Regular expressions are run by backtracking as Python's re does: greedy repetitions try the
   longest text first. *)
From Coq Require Import String.
From Verif Require Export Base Text.
From Verif Require PathModel ProcModel.
Close Scope string_scope.
Local Open Scope nat_scope.

(* ---- re ---- *)
Inductive ritem : Type :=
| RChr (p : ascii -> bool)                   (* one character *)
| RRep (p : ascii -> bool) (lo : nat)        (* lo or more characters, greedy *)
| ROpen | RClose (g : nat)                   (* the group g *)
| REnd.                                      (* $ *)
Definition any (c : ascii) : bool := negb (ascii_eqb c newline).
Definition lit (s : chars) : list ritem := map (fun c => RChr (ascii_eqb c)) s.
Fixpoint run_length (p : ascii -> bool) (s : chars) : nat :=
  match s with c :: s' => if p c then S (run_length p s') else 0 | [] => 0 end.
(* the counts n, n-1, ..., lo *)
Fixpoint try_down {A} (lo n : nat) (f : nat -> option A) : option A :=
  if n <? lo then None
  else match f n with
       | Some a => Some a
       | None => match n with O => None | S n' => try_down lo n' f end
       end.
Definition caps : Type := list (nat * chars).
(* cur: the text of the open group, reversed *)
Fixpoint rmatch (items : list ritem) (s cur : chars) (cs : caps) : option caps :=
  match items with
  | [] => Some cs
  | RChr p :: rest =>
      match s with
      | c :: s' => if p c then rmatch rest s' (c :: cur) cs else None
      | [] => None
      end
  | RRep p lo :: rest =>
      try_down lo (run_length p s) (fun k => rmatch rest (skipn k s) (rev (firstn k s) ++ cur) cs)
  | ROpen :: rest => rmatch rest s [] cs
  | RClose g :: rest => rmatch rest s cur ((g, rev cur) :: cs)
  | REnd :: rest => if at_end s then rmatch rest s cur cs else None
  end.
Fixpoint cap (g : nat) (cs : caps) : option chars :=
  match cs with
  | [] => None
  | (g', t) :: cs' => if Nat.eqb g g' then Some t else cap g cs'
  end.

(* ---- 26-62 the patterns ---- *)
Local Notation s := list_ascii_of_string.
Definition g_radix := 0. Definition g_label := 1. Definition g_map := 2. Definition g_line := 3.
Definition number : ritem := RRep digit 4.                                (* [0-9]{4,} *)
Definition p_radix : list ritem := [ROpen; RRep any 1; RClose g_radix].
Definition p_map : list ritem := lit (s "_") ++ [ROpen; number; RClose g_map].
Definition p_edf : list ritem := RChr any :: lit (s "edf") ++ [REnd].     (* .edf$ *)
Definition p_line : list ritem := lit (s "_0000_") ++ [ROpen; number; RClose g_line] ++ p_edf.
Definition xia_items : list ritem :=
  p_radix ++ lit (s "_") ++ [ROpen] ++ lit (s "xia") ++ [RChr any; RChr any; RClose g_label] ++ p_map ++ p_line.
Definition mca_items : list ritem :=
  p_radix ++ lit (s "_") ++ [ROpen] ++ lit (s "mca") ++ [RClose g_label] ++ p_map ++ p_line.
Definition ctr_items (ctr : chars) : list ritem :=
  p_radix ++ lit (s "_") ++ [ROpen] ++ lit ctr ++ [RRep any 1; RClose g_label] ++ p_map ++ lit (s "_0000") ++ p_edf.
(* 29-38; true: with a detector *)
Definition default_counters : list (chars * bool) :=
  [(s "PUZ_arr", false); (s "PUZ_xmap", true); (s "xmap", true); (s "arr", false); (s "zap", false); (s "mosca", false)].
Definition default_names : list chars := map fst default_counters.
(* counters: the argument of the constructor, plain text; none for xianameparser (129) *)
Definition patterns (counters : list chars) : list (list ritem) :=
  [xia_items; mca_items] ++ map ctr_items default_names ++ map ctr_items counters.

(* 64-70 _parse *)
Fixpoint first_match (ps : list (list ritem)) (t : chars) : option caps :=
  match ps with
  | [] => None
  | p :: ps' => match rmatch p t [] [] with Some c => Some c | None => first_match ps' t end
  end.

(* 27, 78-83: (?P<name>.*?)_?(?P<detector>[0-9]+|sum|Sum|S[0-9]+)$ on a label *)
Definition all_digits (t : chars) : bool := match t with [] => false | _ => forallb digit t end.
Definition is_detector (t : chars) : bool :=
  all_digits t || chars_eqb t (s "sum") || chars_eqb t (s "Sum")
  || match t with c :: t' => ascii_eqb c (ch 83) && all_digits t' | [] => false end.
Definition underscore : ascii := ch 95.
Fixpoint split_detector (name t : chars) : option (chars * chars) :=
  match t with
  | [] => None
  | c :: t' =>
      if ascii_eqb c underscore && is_detector t' then Some (rev name, t')
      else if is_detector t then Some (rev name, t)
      else split_detector (c :: name) t'
  end.
Definition strip_underscore (t : chars) : chars :=
  match rev t with c :: r => if ascii_eqb c underscore then rev r else t | [] => t end.
(* 72-86 xiaparselabel *)
Fixpoint counter_label (ctrs : list (chars * bool)) (label : chars) : chars * chars :=
  match ctrs with
  | [] => (label, [])
  | (ctr, det) :: rest =>
      if (match starts ctr label with Some _ => true | None => false end) && det then
        match split_detector [] label with
        | Some (n, d) => (strip_underscore n, d)
        | None => counter_label rest label
        end
      else counter_label rest label
  end.
Definition parse_label (label : chars) : chars * chars :=
  match starts (s "xia") label with
  | Some d => (s "xia", d)
  | None => counter_label default_counters label
  end.

Record xname : Type := mkName {
  x_radix : chars; x_map : Z; x_line : Z; x_label : chars; x_base : chars; x_det : chars }.
(* 88-127 parse, throw=True *)
Definition parse_with (counters : list chars) (filename : chars) : result xname :=
  match first_match (patterns counters) (PathModel.basename filename) with
  | Some c =>
      match cap g_radix c, cap g_label c, cap g_map c with
      | Some radix, Some label, Some m =>
          let '(base, det) := parse_label label in
          Ok (mkName radix (int_of m) (match cap g_line c with Some l => int_of l | None => (-1)%Z end) label base det)
      | _, _, _ => Err RuntimeError                    (* does not occur *)
      end
  | None => Err RuntimeError
  end.
Definition parse (filename : chars) : result xname := parse_with [] filename.

(* 132-136 xiafilename *)
Definition xiafilename (radix : chars) (mapnum linenum : Z) (label : chars) : chars :=
  if (linenum =? -1)%Z then
    radix ++ s "_" ++ label ++ s "_" ++ format_int 4 mapnum ++ s "_0000.edf"
  else radix ++ s "_" ++ label ++ s "_" ++ format_int 4 mapnum ++ s "_0000_" ++ format_int 4 linenum ++ s ".edf".

(* ---- 177-197 xiasortkey, and the order of the tuples ---- *)
Definition key : Type := chars * Z * Z * chars.
Definition sortkey (o : xname) : key := (x_radix o, x_map o, x_line o, x_label o).
Definition key_ltb (a b : key) : bool :=
  let '(r1, m1, l1, t1) := a in
  let '(r2, m2, l2, t2) := b in
  if negb (chars_eqb r1 r2) then ProcModel.chars_ltb r1 r2
  else if negb (m1 =? m2)%Z then (m1 <? m2)%Z
  else if negb (l1 =? l2)%Z then (l1 <? l2)%Z
  else ProcModel.chars_ltb t1 t2.
(* a file with its parsed name *)
Definition entry : Type := xname * chars.
Definition entry_key (e : entry) : key := sortkey (fst e).
(* list.sort is stable *)
Fixpoint place (x : entry) (l : list entry) : list entry :=
  match l with
  | [] => [x]
  | y :: l' => if key_ltb (entry_key x) (entry_key y) then x :: l else y :: place x l'
  end.
Definition sort (l : list entry) : list entry := fold_left (fun acc x => place x acc) l [].
Fixpoint parse_all (files : list chars) : result (list entry) :=
  match files with
  | [] => Ok []
  | f :: fs => let! o := parse f in let! l := parse_all fs in Ok ((o, f) :: l)
  end.
(* files.sort(key=xiasortkey) *)
Definition sorted_entries (files : list chars) : result (list entry) :=
  let! l := parse_all files in Ok (sort l).

(* ---- 270-345 detector identifiers: numbers, text, or something else ---- *)
Inductive ident : Type := INum (n : Z) | IStr (t : chars).
Definition xia_ (t : chars) : chars := s "xia" ++ t.
(* 270-293 *)
Definition to_label (x : ident) : chars :=
  match x with
  | INum n => xia_ (format_int 2 n)
  | IStr t => if all_digits t then xia_ (format_int 2 (int_of t))
              else match starts (s "xia") t with Some _ => t | None => xia_ t end
  end.
(* 296-321 *)
Definition to_suffix (x : ident) : chars :=
  match x with
  | INum n => format_int 2 n
  | IStr t =>
      let t' := match starts (s "xia") t with Some r => r | None => t end in
      match t' with
      | c :: _ => if ascii_eqb c (ch 83) then s "sum"
                  else if all_digits t' then format_int 2 (int_of t') else t
      | [] => t
      end
  end.
(* 324-343 *)
Definition to_number (x : ident) : option Z :=
  match x with
  | INum n => Some n
  | IStr t =>
      let t' := match starts (s "xia") t with Some r => r | None => t end in
      if all_digits t' then Some (int_of t') else None
  end.
Definition among (x : chars) (l : list chars) : bool := existsb (chars_eqb x) l.
Fixpoint filter_files (valid : xname -> bool) (files : list chars) : result (list chars) :=
  match files with
  | [] => Ok []
  | f :: fs =>
      let! o := parse f in
      let! r := filter_files valid fs in
      Ok (if valid o then f :: r else r)
  end.
Definition nothing {A} (l : list A) : bool := match l with [] => true | _ => false end.
(* 346-380 *)
Definition select_files (files : list chars) (exclude include : list ident) : result (list chars) :=
  if nothing files then Ok files
  else
    let skip := map to_label exclude in
    let keep := map to_label include in
    if nothing skip && nothing keep then Ok files
    else
      let valid x :=
        if nothing skip then among x keep
        else if nothing keep then negb (among x skip)
        else negb (among x skip) && among x keep in
      filter_files (fun o => valid (x_label o)) files.
Fixpoint ends_with (suffix t : chars) : bool :=
  chars_eqb suffix t || match t with [] => false | _ :: t' => ends_with suffix t' end.
(* 383-415 *)
Definition select_counters (files : list chars) (exclude include : list ident) : result (list chars) :=
  if nothing files then Ok files
  else
    let skip := map to_suffix exclude in
    let keep := map to_suffix include in
    if nothing skip && nothing keep then Ok files
    else
      let within x l := existsb (fun sfx => ends_with sfx x) l in
      let valid x :=
        if nothing skip then within x keep
        else if nothing keep then negb (within x skip)
        else negb (within x skip) && within x keep in
      filter_files (fun o => valid (x_det o) || nothing (x_det o)) files.

(* ---- 418-575 groups ---- *)
Section Groups.
Context {A K : Type} (eqb : K -> K -> bool).
(* itertools.groupby *)
Fixpoint groupby (f : A -> K) (l : list A) : list (K * list A) :=
  match l with
  | [] => []
  | x :: l' =>
      match groupby f l' with
      | (k, g) :: r => if eqb (f x) k then (f x, x :: g) :: r else (f x, [x]) :: (k, g) :: r
      | [] => [(f x, [x])]
      end
  end.
(* OrderedDict: get and set *)
Context {V : Type}.
Fixpoint dget (k : K) (d : list (K * V)) (default : V) : V :=
  match d with
  | [] => default
  | (k', v) :: d' => if eqb k k' then v else dget k d' default
  end.
Fixpoint dset (k : K) (v : V) (d : list (K * V)) : list (K * V) :=
  match d with
  | [] => [(k, v)]
  | (k', v') :: d' => if eqb k k' then (k', v) :: d' else (k', v') :: dset k v d'
  end.
End Groups.
Definition files_of (v : list entry) : list chars := map snd v.
(* the list after files.sort(key=xiasortkey) *)
Definition sorted_files (files : list chars) : result (list chars) :=
  let! l := sorted_entries files in Ok (files_of l).
Definition lines_into (d : list (Z * list chars)) (v : list entry) : list (Z * list chars) :=
  fold_left (fun d g => dset Z.eqb (fst g) (files_of (snd g)) d)
    (groupby Z.eqb (fun e => x_line (fst e)) v) d.
Definition maps_into (d : list (Z * list (Z * list chars))) (v : list entry) :=
  fold_left (fun d g => dset Z.eqb (fst g) (lines_into (dget Z.eqb (fst g) d []) (snd g)) d)
    (groupby Z.eqb (fun e => x_map (fst e)) v) d.
Definition radix_into (d : list (chars * list (Z * list (Z * list chars)))) (v : list entry) :=
  fold_left (fun d g => dset chars_eqb (fst g) (maps_into (dget chars_eqb (fst g) d []) (snd g)) d)
    (groupby chars_eqb (fun e => x_radix (fst e)) v) d.
(* 438-456 xiagroup *)
Definition xiagroup (files : list chars) := let! l := sorted_entries files in Ok (radix_into [] l).
(* 524-540 xiagroupmaps, 557-571 xiagrouplines *)
Definition xiagroupmaps (files : list chars) := let! l := sorted_entries files in Ok (maps_into [] l).
Definition xiagrouplines (files : list chars) := let! l := sorted_entries files in Ok (lines_into [] l).
(* 489-508 xiagroupmaps2: the keys are radix_mapnum *)
Definition map_name (radix : chars) (m : Z) : chars := radix ++ s "_" ++ str_int m.
Definition xiagroupmaps2 (files : list chars) :=
  let! l := sorted_entries files in
  Ok (fold_left (fun d g =>
        fold_left (fun d h =>
          let k := map_name (fst g) (fst h) in
          dset chars_eqb k (lines_into (dget chars_eqb k d []) (snd h)) d)
          (groupby Z.eqb (fun e : entry => x_map (fst e)) (snd g)) d)
        (groupby chars_eqb (fun e : entry => x_radix (fst e)) l) []).
(* 471-486 xiagroupdetectors *)
Definition bases_into (d : list (chars * list chars)) (v : list entry) :=
  fold_left (fun d g => dset chars_eqb (fst g) (files_of (snd g)) d)
    (groupby chars_eqb (fun e => x_base (fst e)) v) d.
Definition detectors_into (d : list (chars * list (chars * list chars))) (v : list entry) :=
  fold_left (fun d g => dset chars_eqb (fst g) (bases_into (dget chars_eqb (fst g) d []) (snd g)) d)
    (groupby chars_eqb (fun e => x_det (fst e)) v) d.
Definition xiagroupdetectors (files : list chars) :=
  let! l := sorted_entries files in Ok (detectors_into [] l).
