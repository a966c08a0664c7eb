(* Model of src/spectrocrunch/io/spec.py 19-156 (zapline_*, ascan_*, zapimage_submap), 865-911 (getdimensions) and the sizes of 921-995 (getimages).
   Floats are exact rationals; start and end are Python floats, so that a division by 0 raises. Text is ASCII. *)
From Coq Require Import String QArith Qcanon.
From Verif Require Export ScanModel.
Local Open Scope nat_scope.

Definition qn (n : Z) : Qc := Qc_of_Z n.
(* a / float(n) *)
Definition fdiv (a : Qc) (n : Z) : result Qc := if Z.eqb n 0 then Err ZeroDivisionError else Ok (a / qn n)%Qc.
(* np.arange(n) *)
Definition arange (n : Z) : list Qc := map (fun i => qn (Z.of_nat i)) (seq 0 (Z.to_nat n)).
(* 19-22 *)
Definition zapline_values (start stop : Qc) (npixels : Z) : result (list Qc) :=
  let! inc := fdiv (stop - start)%Qc npixels in Ok (map (fun i => (start + inc / qn 2 + inc * i)%Qc) (arange npixels)).
(* 25-28 *)
Definition zapline_range (start stop : Qc) (npixels : Z) : result (list Qc) :=
  let! inc := fdiv (stop - start)%Qc npixels in Ok [(start + inc / qn 2)%Qc; (stop - inc / qn 2)%Qc].
(* 31-33 *)
Definition zapline_pixelsize (start stop : Qc) (npixels : Z) : result Qc := fdiv (stop - start)%Qc (npixels - 1).
(* 36-39 *)
Definition zapline_scansize (start stop : Qc) (npixels : Z) : result Qc :=
  let! inc := fdiv (stop - start)%Qc npixels in Ok (stop - start - inc)%Qc.
(* 42-45 *)
Definition ascan_values (start stop : Qc) (nsteps : Z) : result (list Qc) :=
  let! inc := fdiv (stop - start)%Qc nsteps in Ok (map (fun i => (start + inc * i)%Qc) (arange (nsteps + 1))).
(* 48-50 *)
Definition ascan_range (start stop : Qc) (nsteps : Z) : result (list Qc) := Ok [start; stop].
(* 53-55 *)
Definition ascan_pixelsize (start stop : Qc) (nsteps : Z) : result Qc := fdiv (stop - start)%Qc nsteps.
(* 58-60 *)
Definition ascan_scansize (start stop : Qc) (nsteps : Z) : result Qc := Ok (stop - start)%Qc.

(* ---- access to the dictionary of a command ---- *)
Definition get (d : dict) (k : chars) : result field := match lookup chars_eqb k d with Some v => Ok v | None => Err KeyError end.
(* the fields have the type that their key says: 270-511 *)
Definition get_num (d : dict) (k : chars) : result Qc := let! v := get d k in match v with FNum x => Ok x | _ => Err TypeError end.
Definition get_int (d : dict) (k : chars) : result Z := let! v := get d k in match v with FInt n => Ok n | _ => Err TypeError end.
Definition get_text (d : dict) (k : chars) : result chars := let! v := get d k in match v with FText w => Ok w | _ => Err TypeError end.

(* np.abs(values - p).argmin() *)
Definition argmin_empty (values : list Qc) : result unit := match values with [] => Err ValueError | _ => Ok tt end.
Definition position (d : list (chars * Qc)) (k : chars) : result Qc := match lookup chars_eqb k d with Some v => Ok v | None => Err KeyError end.
Fixpoint positions (header : list (chars * Qc)) (motors : list chars) : result (list (chars * Qc)) :=
  match motors with [] => Ok [] | m :: ms => let! p := position header m in let! ps := positions header ms in Ok ((m, p) :: ps) end.
(* 63-156; the attribute of line 126 does not exist, so that nothing after it is reached. What is returned is scancmd, mvcmd and the ranges. *)
Definition zapimage_submap {A} (cmd : option chars) (header currentpos microntounits : list (chars * Qc)) : result A :=
  match cmd with
  | None => Err KeyError
  | Some c =>
      let r := parsezapimage c in
      let! name := get_text r kname in
      if negb (chars_eqb name (txt "zapimage")) then Err RuntimeError else
      let! sf := get_num r kstartfast in let! ef := get_num r kendfast in let! nf := get_int r knpixelsfast in
      let! fast := zapline_values sf ef nf in
      let! ss := get_num r kstartslow in let! es := get_num r kendslow in let! ns := get_int r knstepsslow in
      let! slow := ascan_values ss es ns in
      let! mf := get_text r kmotfast in let! ms := get_text r kmotslow in
      let! _ := position currentpos mf in let! _ := position microntounits mf in
      let! _ := position currentpos ms in let! _ := position microntounits ms in
      let! _ := argmin_empty fast in let! _ := argmin_empty slow in
      let! _ := positions header (map fst currentpos) in
      Err AttributeError
  end.

(* ---- 756-760: lower case ---- *)
Definition lower1 (c : ascii) : ascii := let n := nat_of_ascii c in if (65 <=? n) && (n <=? 90) then ascii_of_nat (n + 32) else c.
Definition lower (s : chars) : chars := map lower1 s.
(* names.index(mot), values[...] *)
Fixpoint value_at (names : list chars) (values : list Qc) (m : chars) : result Qc :=
  match names, values with
  | [], _ => Err ValueError
  | n :: ns, v :: vs => if chars_eqb m n then Ok v else value_at ns vs m
  | n :: ns, [] => if chars_eqb m n then Err IndexError else value_at ns [] m
  end.
Inductive extent : Type := At (x : Qc) | Range (l : list Qc).
Fixpoint at_positions (names : list chars) (values : list Qc) (motors : list chars) (acc : list (chars * extent)) : result (list (chars * extent)) :=
  match motors with
  | [] => Ok acc
  | m :: ms => let! v := value_at names values m in at_positions names values ms (assign chars_eqb m (At v) acc)
  end.
Definition among (m : chars) (l : list chars) : bool := existsb (chars_eqb m) l.
(* one axis: if result[mot] in motors: ret[result[mot]] = np.array(range(result[start], result[end], result[n])) *)
Definition set_range (d : dict) (motors : list chars) (kmot kstart kend kn : chars) (range : Qc -> Qc -> Z -> result (list Qc))
    (ret : list (chars * extent)) : result (list (chars * extent)) :=
  let! m := get_text d kmot in
  if among m motors then
    let! s := get_num d kstart in let! e := get_num d kend in let! n := get_int d kn in
    let! l := range s e n in Ok (assign chars_eqb m (Range l) ret)
  else Ok ret.
(* 865-911 *)
Definition getdimensions (mnames : list chars) (values : list Qc) (cmd : chars) (motors0 : list chars) : result (list (chars * extent)) :=
  let motors := map lower motors0 in
  let names := map lower mnames in
  let! ret := at_positions names values motors [] in
  let d := parse cmd in
  let! name := get_text d kname in
  if chars_eqb name (txt "zapimage") then
    let! ret := set_range d motors kmotfast kstartfast kendfast knpixelsfast zapline_range ret in
    set_range d motors kmotslow kstartslow kendslow knstepsslow ascan_range ret
  else if chars_eqb name (txt "ascan") then
    set_range d motors kmotfast kstartfast (txt "endsfast") knstepsfast ascan_range ret
  else if chars_eqb name (txt "mesh") then
    let! ret := set_range d motors kmotfast kstartfast kendfast knpixelsfast ascan_range ret in
    set_range d motors kmotslow kstartslow kendslow knstepsslow ascan_range ret
  else Ok ret.

(* 934-968, for a command that is known: the texts "a x b" are pairs *)
Record sizes : Type := mk_sizes { scansize : Z * Z; scansize_units : Qc * Qc; pixelsize : Qc * Qc }.
Definition image_sizes (cmd : chars) : result sizes :=
  let d := parse cmd in
  let! nf := get_int d knpixelsfast in let! ns := get_int d knstepsslow in
  let! sf := get_num d kstartfast in let! ef := get_num d kendfast in
  let! a := zapline_scansize sf ef nf in let! b := ascan_scansize sf ef nf in
  let! p := zapline_pixelsize sf ef nf in let! q := ascan_pixelsize sf ef nf in
  Ok (mk_sizes (nf, (ns + 1)%Z) (a, b) (p, q)).
