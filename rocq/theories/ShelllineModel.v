(* Model of the shells and fluorescence lines of src/spectrocrunch/materials/xrayspectrum.py (FluoLine, Shell), of the tables of
   src/spectrocrunch/patch/xraylib.py on which they rely and of the comparison of src/spectrocrunch/utils/comparable.py.
   The data of the external library xraylib are parameters.  Strings are ASCII.  Dictionaries are association lists in the order
   in which they are iterated; a Python set is iterated in an arbitrary order, which is a parameter where it could matter. *)
From Coq Require Import String Ascii DecimalString.
From Verif Require Import Base QcTac.
Local Open Scope string_scope.
Local Open Scope list_scope.
Local Open Scope nat_scope.

(* ---- Python strings ---- *)
(* str.upper of one character, str.isdigit, iteration over the characters of a string, str.endswith, str.format of a number *)
Definition upper (c : ascii) : ascii :=
  let n := nat_of_ascii c in if (97 <=? n) && (n <=? 122) then ascii_of_nat (n - 32) else c.
Definition isdigit (c : ascii) : bool := let n := nat_of_ascii c in (48 <=? n) && (n <=? 57).
Fixpoint alldigits (s : string) : bool := match s with EmptyString => true | String c s' => isdigit c && alldigits s' end.
Fixpoint characters (s : string) : list string := match s with EmptyString => [] | String c s' => String c EmptyString :: characters s' end.
Definition endswith (suffix s : string) : bool :=
  (String.length suffix <=? String.length s) && String.eqb (substring (String.length s - String.length suffix) (String.length suffix) s) suffix.
Definition shown (i : nat) : string := NilZero.string_of_uint (Nat.to_uint i).
Definition contains (s : string) (l : list string) : bool := existsb (String.eqb s) l.
(* sorted() of strings; sets keep one of each *)
Fixpoint insert (s : string) (l : list string) : list string :=
  match l with [] => [s] | x :: l' => if String.leb s x then s :: l else x :: insert s l' end.
Fixpoint sorted (l : list string) : list string := match l with [] => [] | s :: l' => insert s (sorted l') end.
Fixpoint unique (l : list string) : list string := match l with [] => [] | s :: l' => if contains s l' then unique l' else s :: unique l' end.

(* ---- 321-336 Shell.expand of a name: a name or a list of names ---- *)
Definition subshells (c : ascii) (n : nat) : list string := map (fun i => String c (shown i)) (seq 1 (2 * n - 1)).
Definition expand (shell : string) : result (string + list string) :=
  match shell with
  | EmptyString => Err IndexError                                     (* shell[0] *)
  | String c EmptyString =>
      let u := upper c in
      let n := (Z.of_nat (nat_of_ascii u) - Z.of_nat (nat_of_ascii "K") + 1)%Z in
      if (n =? 1)%Z then Ok (inl (String u EmptyString)) else Ok (inr (subshells u (Z.to_nat n)))
  | String c rest => if alldigits rest then Ok (inl shell) else Ok (inl (String c EmptyString))
  end.
(* iteration over the outcome: over the characters of a string *)
Definition items (x : string + list string) : list string := match x with inl s => characters s | inr l => l end.
(* listtools.flatten keeps strings *)
Definition flattened (x : string + list string) : list string := match x with inl s => [s] | inr l => l end.

(* 338-345 expandall *)
Definition expandall (shells : list string) : result (list string) :=
  let! l := mapM expand shells in Ok (sorted (unique (flat_map flattened l))).

(* 347-356 expandselection: the filter keeps what is equal *)
Fixpoint select (shells selection : list string) : result (list string) :=
  match selection with
  | [] => Ok shells
  | shell :: rest =>
      let kept := filter (fun s => negb (negb (String.eqb s shell))) shells in
      let! x := expand shell in
      select (kept ++ items x) rest
  end.
Definition expandselection (shells selection : list string) : result (list string) :=
  let! l := select shells selection in Ok (sorted l).

(* 358-366 shrink: the letters form a set, iterated in any order *)
Definition letter (s : string) : result string :=
  match s with EmptyString => Err IndexError | String c _ => Ok (String (upper c) EmptyString) end.
Fixpoint shrink_loop (groups : list string) (shells : list string) : result (list string) :=
  match groups with
  | [] => Ok shells
  | g :: rest =>
      let! sub := expand g in
      shrink_loop rest
        (if forallb (fun s => contains s shells) (items sub)
         then filter (fun s => negb (String.prefix g s)) shells ++ [g] else shells)
  end.
Definition shrink (order : list string -> list string) (shells : list string) : result (list string) :=
  let! groups := mapM letter shells in
  let! l := shrink_loop (order (unique groups)) shells in Ok (sorted l).

(* 368-385 pymcafactory: on the names of the shells of Shell.factory *)
Definition initial (s : string) : result string := match s with EmptyString => Err IndexError | String c _ => Ok (String c EmptyString) end.
Fixpoint filterM (f : string -> result bool) (l : list string) : result (list string) :=
  match l with [] => Ok [] | s :: l' => let! b := f s in let! r := filterM f l' in Ok (if b then s :: r else r) end.
Definition pymcafactory (order : list string -> list string) (names : list string) (split : list string) (allowsplitM : bool) : result (list string) :=
  let! shells := shrink order names in
  let! shells := filterM (fun s => let! c := initial s in Ok (contains c ["K"; "L"; "M"])) shells in
  let! shells := match split with [] => Ok shells | _ => expandselection shells split end in
  if allowsplitM then Ok shells
  else filterM (fun s => let! c := initial s in Ok (negb (String.eqb c "M") || String.eqb s "M")) shells.

(* ---- the tables of xraylib, patch/xraylib.py 20-67 ---- *)
Record tables : Type := {
  t_shells : list (Z * string);          (* code_to_shell *)
  t_lines : list (string * Z);           (* line_to_code *)
  t_composites : list (Z * list Z);      (* composites *)
  t_lineenergy : Z -> Z -> Qc;           (* LineEnergy(Z, code), 0 when unknown *)
  t_radrate : Z -> Z -> Qc               (* RadRate(Z, code), 0 when unknown *)
}.
Definition shell_to_code (t : tables) : list (string * Z) := map (fun p => (snd p, fst p)) (t_shells t).
(* code_to_line[code]: the names with this code *)
Definition code_to_line (t : tables) (code : Z) : result (list string) :=
  match map fst (filter (fun p => (snd p =? code)%Z) (t_lines t)) with [] => Err KeyError | names => Ok names end.
Definition is_code (t : tables) (code : Z) : bool := existsb (fun p => (snd p =? code)%Z) (t_lines t).
(* 69-76 rcomposites: appended and sorted when there was one already *)
Fixpoint insertZ (z : Z) (l : list Z) : list Z := match l with [] => [z] | x :: l' => if (z <=? x)%Z then z :: l else x :: insertZ z l' end.
Definition sortZ (l : list Z) : list Z := fold_right insertZ [] l.
Definition add_composite (k : Z) (r : list (Z * list Z)) (l : Z) : list (Z * list Z) :=
  match lookup Z.eqb l r with None => assign Z.eqb l [k] r | Some ks => assign Z.eqb l (sortZ (ks ++ [k])) r end.
Definition rcomposites (t : tables) : list (Z * list Z) :=
  fold_left (fun r p => fold_left (add_composite (fst p)) (snd p) r) (t_composites t) [].

(* ---- FluoLine ---- *)
Record fluoline : Type := { l_code : Z; l_name : string }.
Inductive line_arg : Type := LineObject (l : fluoline) | LineCode (code : Z) | LineName (name : string).

(* names[np.argmax([len(name) ...])]: the first of the longest *)
Fixpoint longest (best : string) (names : list string) : string :=
  match names with [] => best | n :: l => longest (if String.length best <? String.length n then n else best) l end.
(* 31-57 getlinename *)
Definition getlinename (t : tables) (line : line_arg) : result string :=
  match line with
  | LineObject l => Ok (l_name l)
  | LineCode code =>
      let! names := code_to_line t code in
      match names with
      | [] => Err ValueError
      | [n] => Ok n
      | [n0; n1] =>
          if String.length n0 =? String.length n1 then
            match String.get 1 n0 with
            | None => Err IndexError                                  (* names[0][1] *)
            | Some c => if Ascii.eqb c "A" || Ascii.eqb c "B" then Ok n1 else Ok n0
            end
          else if String.length n1 <? String.length n0 then Ok n0 else Ok n1
      | n :: l => Ok (longest n l)
      end
  | LineName name => if mem String.eqb name (t_lines t) then Ok name else Err ValueError
  end.
(* 59-67 getlinecode *)
Definition getlinecode (t : tables) (line : line_arg) : result Z :=
  match line with
  | LineObject l => Ok (l_code l)
  | LineCode code => if is_code t code then Ok code else Err ValueError
  | LineName name => match lookup String.eqb name (t_lines t) with None => Err KeyError | Some c => Ok c end
  end.
(* 156-166 FluoLine(line) *)
Definition new_line (t : tables) (line : line_arg) : result fluoline :=
  match line with
  | LineObject l => Ok l
  | _ => let! c := getlinecode t line in let! n := getlinename t line in Ok {| l_code := c; l_name := n |}
  end.
(* 69-80 decompose *)
Definition decompose (t : tables) (code : Z) : list Z := match lookup Z.eqb code (t_composites t) with Some l => l | None => [code] end.

(* 82-91 all_lines: FluoLine(code) of the sub lines of all codes from the largest to the smallest, a set on the names *)
Definition codes (t : tables) : list Z := map snd (t_lines t).
Definition code_range (l : list Z) : result (list Z) :=
  match l with
  | [] => Err ValueError
  | c :: l' => let hi := fold_left Z.max l' c in let lo := fold_left Z.min l' c in
               Ok (map (fun i => (hi - Z.of_nat i)%Z) (seq 0 (Z.to_nat (hi - lo + 1))))
  end.
(* lines with the same name have the same code, so it does not matter which of them the set keeps *)
Fixpoint distinct (l : list fluoline) : list fluoline :=
  match l with [] => [] | x :: l' => if existsb (fun y => String.eqb (l_name y) (l_name x)) l' then distinct l' else x :: distinct l' end.
Definition all_lines (t : tables) : result (list fluoline) :=
  let! r := code_range (codes t) in
  let! l := mapM (fun c => new_line t (LineCode c)) (flat_map (decompose t) r) in
  Ok (distinct l).

(* 206-230 energy and 182-204 radrate: when zero, of the first composite with a negative code for which it is not zero *)
Definition composites_of (t : tables) (code : Z) : list Z := match lookup Z.eqb code (rcomposites t) with Some l => l | None => [] end.
Fixpoint energy_of (t : tables) (z : Z) (comps : list Z) : Qc :=
  match comps with
  | [] => 0%Qc
  | c :: rest => if (0 <=? c)%Z then energy_of t z rest
                 else let e := t_lineenergy t z c in if Qc_eqb e 0 then energy_of t z rest else e
  end.
Definition line_energy (t : tables) (z : Z) (code : Z) : Qc :=
  let e := t_lineenergy t z code in if Qc_eqb e 0 then energy_of t z (composites_of t code) else e.
Fixpoint radrate_of (t : tables) (z : Z) (comps : list Z) : Qc :=
  match comps with
  | [] => 0%Qc
  | c :: rest => if (0 <=? c)%Z then radrate_of t z rest
                 else let r := t_radrate t z c in
                      if Qc_eqb r 0 then radrate_of t z rest
                      else (r / Qc_of_Z (Z.of_nat (List.length (match lookup Z.eqb c (t_composites t) with Some l => l | None => [] end))))%Qc
  end.
Definition line_radrate (t : tables) (z : Z) (code : Z) : Qc :=
  let r := t_radrate t z code in if Qc_eqb r 0 then radrate_of t z (composites_of t code) else r.

(* 232-238 shell, 253-261 shellsource: the first shell whose name begins or ends the name of the line *)
Definition shell_of (t : tables) (l : fluoline) : result string :=
  match find (fun s => String.prefix s (l_name l)) (map snd (t_shells t)) with None => Err RuntimeError | Some s => Ok s end.
Definition shellsource (t : tables) (l : fluoline) : result string :=
  match find (fun s => endswith s (l_name l)) (map snd (t_shells t)) with None => Err RuntimeError | Some s => Ok s end.
(* 240-251 groupname: the first name of the first composite *)
Definition groupname (t : tables) (l : fluoline) : result string :=
  let! s := shell_of t l in
  match lookup Z.eqb (l_code l) (rcomposites t) with
  | None => Ok s
  | Some [] => Err IndexError
  | Some (k :: _) =>
      let! names := code_to_line t k in
      match names with
      | [] => Err IndexError
      | name :: _ => if String.eqb name "KA" || String.eqb name "KB" then Ok name else Ok s
      end
  end.

(* ---- Shell ---- *)
Record shell : Type := { s_code : Z; s_name : string; s_lines : option (list fluoline) }.
Inductive shell_arg : Type := ShellObject (s : shell) | ShellCode (code : Z) | ShellName (name : string).
(* 275-298 getshellname, getshellcode *)
Definition getshellname (t : tables) (a : shell_arg) : result string :=
  match a with
  | ShellObject s => Ok (s_name s)
  | ShellCode code => match lookup Z.eqb code (t_shells t) with None => Err KeyError | Some n => Ok n end
  | ShellName name => if mem String.eqb name (shell_to_code t) then Ok name else Err ValueError
  end.
Definition getshellcode (t : tables) (a : shell_arg) : result Z :=
  match a with
  | ShellObject s => Ok (s_code s)
  | ShellCode code => if mem Z.eqb code (t_shells t) then Ok code else Err ValueError
  | ShellName name => match lookup String.eqb name (shell_to_code t) with None => Err KeyError | Some c => Ok c end
  end.

(* any(... for code in ...): stops at the first *)
Fixpoint anyM {A} (f : A -> result bool) (l : list A) : result bool :=
  match l with [] => Ok false | x :: l' => let! b := f x in if b then Ok true else anyM f l' end.
Fixpoint filter_lines (f : fluoline -> result bool) (l : list fluoline) : result (list fluoline) :=
  match l with [] => Ok [] | x :: l' => let! b := f x in let! r := filter_lines f l' in Ok (if b then x :: r else r) end.
(* 93-154 FluoLine.factory: fluolines None or [] are all; shells; an element with its lowest and highest energy *)
Definition line_factory (t : tables) (shells : option (list shell_arg)) (fluolines : option (list line_arg)) (energybounds : option (Z * Qc * Qc))
  : result (list fluoline) :=
  let! lines := match fluolines with None | Some [] => all_lines t | Some l => mapM (new_line t) l end in
  let! lines :=
    match shells with
    | None => Ok lines
    | Some l =>
        let! names := mapM (getshellname t) l in
        filter_lines (fun line => anyM (fun code => anyM (fun s => let! n := getlinename t (LineCode code) in Ok (String.prefix s n)) names)
                                       (decompose t (l_code line))) lines
    end in
  match energybounds with
  | None => Ok lines
  | Some (z, lo, hi) => Ok (filter (fun line => let e := line_energy t z (l_code line) in Qc_leb lo e && Qc_leb e hi && negb (Qc_eqb e 0)) lines)
  end.

(* 387-402 Shell(shell, fluolines) *)
Definition new_shell (t : tables) (a : shell_arg) (fluolines : option (list line_arg)) : result shell :=
  let! c := getshellcode t a in
  let! n := getshellname t a in
  match a, fluolines with
  | ShellObject s, None => Ok {| s_code := c; s_name := n; s_lines := s_lines s |}
  | _, None => Ok {| s_code := c; s_name := n; s_lines := None |}
  | _, Some l =>
      let! r := line_factory t (Some [ShellName n]) (Some l) None in
      Ok {| s_code := c; s_name := n; s_lines := Some r |}
  end.
(* 412-417 fluolines: the lines are stored *)
Definition fluolines (t : tables) (s : shell) : shell * result (list fluoline) :=
  match s_lines s with
  | Some l => (s, Ok l)
  | None => match line_factory t (Some [ShellObject s]) None None with
            | Ok l => ({| s_code := s_code s; s_name := s_name s; s_lines := Some l |}, Ok l)
            | Err e => (s, Err e)
            end
  end.
Definition qsum (l : list Qc) : Qc := fold_right Qcplus 0%Qc l.
(* 447-453 radrate of a shell *)
Definition shell_radrate (t : tables) (z : Z) (s : shell) : list Qc :=
  match s_lines s with None => [1%Qc] | Some l => map (fun x => line_radrate t z (l_code x)) l end.
(* 461-472 partial_fluoyield, not decomposed and decomposed; fy is the fluorescence yield of the shell *)
Definition total_yield (t : tables) (z : Z) (fy : Qc) (s : shell) : Qc :=
  match s_lines s with None => fy | Some _ => (fy * qsum (shell_radrate t z s))%Qc end.
Definition decomposed_yield (t : tables) (z : Z) (fy : Qc) (s : shell) : shell * result (list (string * Qc)) :=
  let (s', r) := fluolines t s in
  (s', let! l := r in Ok (fold_left (fun d x => assign String.eqb (l_name x) (fy * line_radrate t z (l_code x))%Qc d) l [])).

(* ---- comparison: utils/comparable.py 26-66 with _cmpkey (173-177) and _sortkey (170-171) of FluoLine ---- *)
Inductive object : Type := Num (z : Z) | Text (s : string) | Line (l : fluoline).
Definition equal (l : fluoline) (other : object) : bool :=
  match other with
  | Num z => (l_code l =? z)%Z
  | Text s => String.eqb (l_name l) s
  | Line l' => String.eqb (l_name l) (l_name l')
  end.
Definition less (l : fluoline) (other : object) : result bool :=
  match other with
  | Num z => Ok (l_code l <? z)%Z
  | Text s => Err TypeError
  | Line l' => Ok (l_code l <? l_code l')%Z
  end.
(* __hash__ (utils/hashable.py 9-10) is that of the name *)
Definition hash_key (l : fluoline) : string := l_name l.
