(* Model of src/spectrocrunch/io/spec.py 1009-1118: extractxanesinfo and extractxanesginfo. A spec file is the list of its scans: the number
   of the key, the command and the number of lines. int(text) is modelled for texts of digits, everything else is a ValueError. *)
From Coq Require Import String.
From Verif Require Export Base Text.
Local Open Scope nat_scope.

Record fscan : Type := mk_fscan { number : Z; command : chars; lines : Z }.
(* cmd.split(" ")[i]; the list is never empty *)
Fixpoint split_space (s : chars) : list chars :=
  match s with
  | [] => [[]]
  | c :: r => if ascii_eqb c (ch 32) then [] :: split_space r else match split_space r with w :: ws => (c :: w) :: ws | [] => [[c]] end
  end.
Definition item_of (l : list chars) (i : nat) : result chars := match nth_error l i with Some w => Ok w | None => Err IndexError end.
Definition pyint (w : chars) : result Z := match w with [] => Err ValueError | _ => if forallb digit w then Ok (int_of w) else Err ValueError end.
Definition repeats_of (s : fscan) : result Z := let! w := item_of (split_space (command s)) 2 in pyint w.
Definition startswith (s p : chars) : bool := match starts p s with Some _ => true | None => false end.
(* (scannumber, repeats) *)
Definition entry : Type := (Z * Z)%type.
(* ret[-1] = e *)
Definition set_last (l : list entry) (e : entry) : result (list entry) := match l with [] => Err IndexError | _ => Ok (removelast l ++ [e]) end.
Definition skipped (nr : option Z) (p : Z -> bool) : bool := match nr with Some n => p n | None => false end.
(* 1009-1054 *)
Fixpoint infos (skip : list Z) (nrmin nrmax : option Z) (scans : list fscan) (ret : list entry) : result (list entry) :=
  match scans with
  | [] => Ok ret
  | s :: scans' =>
      if skipped nrmin (fun m => Z.ltb (number s) m) then infos skip nrmin nrmax scans' ret
      else if skipped nrmax (fun m => Z.ltb m (number s)) then infos skip nrmin nrmax scans' ret
      else if existsb (Z.eqb (number s)) skip then infos skip nrmin nrmax scans' ret
      else if startswith (command s) (txt "zapline mono ") then
        if Z.eqb (lines s) 0 then infos skip nrmin nrmax scans' ret
        else infos skip nrmin nrmax scans' (ret ++ [(number s, 1%Z)])
      else if startswith (command s) (txt "zapenergy SUM ") then
        if Z.eqb (lines s) 0 then infos skip nrmin nrmax scans' ret
        else let! n := repeats_of s in infos skip nrmin nrmax scans' (ret ++ [(number s, n)])
      else if startswith (command s) (txt "zapenergy SUM2 ") then
        if Z.eqb (lines s) 0 then infos skip nrmin nrmax scans' ret
        else let! n := repeats_of s in let! ret' := set_last ret (number s, n) in infos skip nrmin nrmax scans' ret'
      else infos skip nrmin nrmax scans' ret
  end.
Definition extractxanesinfo (skip : list Z) (nrmin nrmax : option Z) (scans : list fscan) : result (list entry) := infos skip nrmin nrmax scans [].

(* data[i]["scannumber"], data[i]["repeats"]; all indices are in range *)
Definition num_at (data : list entry) (i : nat) : Z := fst (nth i data (0%Z, 0%Z)).
Definition rep_at (data : list entry) (i : nat) : Z := snd (nth i data (0%Z, 0%Z)).
(* while (data[i0 - 1]["repeats"] if i0 > 0 else 0) == 1: i0 -= 1 *)
Fixpoint back (data : list entry) (i0 : nat) : nat :=
  match i0 with O => O | S j => if Z.eqb (rep_at data j) 1 then back data j else i0 end.
Fixpoint put {A} (l : list A) (i : nat) (v : A) : list A :=
  match l, i with [], _ => [] | _ :: l', O => v :: l' | x :: l', S j => x :: put l' j v end.
Record gopts : Type := mk_gopts { keepsum : bool; sumingroups : bool; keepindividual : bool }.
(* the body of the first loop: 1077-1110 *)
Definition group_step (o : gopts) (data : list entry) (st : list bool * list (list Z)) (i : nat) : list bool * list (list Z) :=
  let (bproc, ret) := st in
  if negb (nth i bproc false) then st else
  let n := rep_at data i in
  if Z.ltb 1 n then
    let i0 := back data i in
    let i1 := i in
    let first := Z.to_nat (Z.max (Z.of_nat i0) (Z.of_nat i - n)) in
    let rng := seq first (i1 - first) in
    let add := map (num_at data) (filter (fun k => nth k bproc false) rng) in
    let bproc := fold_left (fun b k => put b k (keepindividual o)) rng bproc in
    let '(add, bproc) :=
      if keepsum o then
        if sumingroups o then (add ++ [num_at data i1], put bproc i1 (keepindividual o)) else (add, bproc)
      else (add, put bproc i1 false) in
    (bproc, match add with [] => ret | _ => ret ++ [add] end)
  else st.
(* 1056-1118 *)
Definition group (o : gopts) (data : list entry) : list (list Z) :=
  let idx := seq 0 (length data) in
  let (bproc, ret) := fold_left (group_step o data) idx (repeat true (length data), []) in
  ret ++ map (fun i => [num_at data i]) (filter (fun i => nth i bproc false) idx).
Definition extractxanesginfo (o : gopts) (skip : list Z) (nrmin nrmax : option Z) (scans : list fscan) : result (list (list Z)) :=
  let! data := extractxanesinfo skip nrmin nrmax scans in Ok (group o data).
