(* Model of src/spectrocrunch/fullfield/estimate_id21.py 15-63 (FFsetup): the amount of one compound in a layer.
   A layer is the fractions of its compounds by name (mass fractions or volume fractions, conversions between them are in StoichModel)
   and its thickness; numbers are rationals, a division by zero is ZeroDivisionError (numpy gives inf or nan). *)
From Verif Require Export Base QcTac.
From Coq Require Export String.
Local Open Scope list_scope.
Local Open Scope nat_scope.

Definition fractions := list (string * Qc).
Definition sum (l : list Qc) : Qc := fold_right Qcplus 0%Qc l.
Definition qdivide (a b : Qc) : result Qc := if Qc_eqb b 0 then Err ZeroDivisionError else Ok (a / b)%Qc.
(* materials/mixture.py 99-117 and 175-188: fractions are normalised when they are read back *)
Definition normalise (f : fractions) : result fractions :=
  let s := sum (map snd f) in if Qc_eqb s 0 then Err ZeroDivisionError else Ok (map (fun kv => (fst kv, snd kv / s)%Qc) f).
(* 21-32 set_wcompound and 37-48 set_vcompound; AttributeError: a name instead of a compound *)
Definition set_compound (name : string) (percent : Qc) (f : fractions) : result fractions :=
  let x := (percent / Qc_of_Z 100)%Qc in
  if Qc_eqb x 1 then Err ValueError
  else
    let s := sum (map snd (filter (fun kv => negb (String.eqb (fst kv) name)) f)) in
    let! m := qdivide (1 - x)%Qc s in
    let g := map (fun kv => (fst kv, snd kv * m)%Qc) f in
    if mem String.eqb name g then normalise (assign String.eqb name x g) else Err AttributeError.
(* 34-35 get_wcompound and 50-51 get_vcompound *)
Definition get_compound (name : string) (f : fractions) : result Qc :=
  match lookup String.eqb name f with Some v => Ok (v * Qc_of_Z 100)%Qc | None => Err KeyError end.
(* 59-63: the thickness of a layer is in cm, here in micrometer *)
Definition set_layerthickness (t : Qc) : Qc := (t / Qc_of_Z 10000)%Qc.
Definition get_layerthickness (thickness : Qc) : Qc := (thickness * Qc_of_Z 10000)%Qc.
(* 53-57 *)
Definition set_tcompound (name : string) (t thickness : Qc) (f : fractions) : result fractions :=
  let! r := qdivide t (get_layerthickness thickness) in set_compound name (r * Qc_of_Z 100)%Qc f.
Definition get_tcompound (name : string) (thickness : Qc) (f : fractions) : result Qc :=
  let! v := get_compound name f in Ok (v * get_layerthickness thickness / Qc_of_Z 100)%Qc.
