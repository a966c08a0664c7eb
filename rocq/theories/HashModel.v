(* Model of src/spectrocrunch/utils/hashing.py and io/target.py:calc_checksum *)
From Coq Require Export String Ascii.
From Coq Require Import DecimalString.
From Verif Require Export Base ListToolsModel.
Export ListNotations.

(* bytes compared the way Python's sorted does *)
Fixpoint str_leb (s t : string) : bool :=
  match s, t with
  | EmptyString, _ => true
  | String _ _, EmptyString => false
  | String a s', String b t' =>
      if N.ltb (N_of_ascii a) (N_of_ascii b) then true
      else if N.eqb (N_of_ascii a) (N_of_ascii b) then str_leb s' t' else false
  end.

(* str(int) *)
Definition str_of_Z (z : Z) : string := NilZero.string_of_int (Z.to_int z).

(* b"".join *)
Fixpoint join (l : list string) : string :=
  match l with [] => EmptyString | s :: l' => append s (join l') end.

(* Numbers as utils/hashing.py:52-58 distinguishes them.  NFloatInt z is a float
   (or numpy number) whose value is the integer z, NText any number that is not
   equal to an integer or cannot be converted to int (nan, inf, 0.5), given by
   its str(), NComplexInt z the complex number z+0j (int() raises TypeError). *)
Inductive pynum : Type :=
| NBool (b : bool)
| NInt (z : Z)
| NFloatInt (z : Z)
| NText (s : string)
| NComplexInt (z : Z).

Inductive seqkind : Type := KList | KTuple | KArray.

(* The values calchash distinguishes.  Custom objects (utils/hashing.py:85-86,
   via jsonpickle) are not modelled.  Sets and dictionaries are given with their
   enumeration order. *)
Inductive pyval : Type :=
| PNone
| PStr (isbytes : bool) (s : string)
| PNum (n : pynum)
| PSeq (k : seqkind) (l : list pyval)
| PArr0 (v : pyval)                              (* 0-dimensional array *)
| PSet (frozen : bool) (l : list pyval)
| PMap (ordered : bool) (l : list (pyval * pyval))
| PQty (mag : pyval) (units : string).

(* utils/hashing.py:13-14 *)
Definition cls (name : string) : string := append "<class '" (append name "'>").

Definition num_text (n : pynum) : string :=
  match n with
  | NBool b => str_of_Z (if b then 1 else 0)
  | NInt z => str_of_Z z
  | NFloatInt z => str_of_Z z
  | NText s => s
  | NComplexInt z => append "(" (append (str_of_Z z) "+0j)")
  end.

Definition seqname (k : seqkind) : string :=
  match k with KList => "list" | KTuple => "tuple" | KArray => "ndarray" end.
Definition setname (frozen : bool) : string := if frozen then "frozenset" else "set".
Definition mapname (ordered : bool) : string := if ordered then "OrderedDict" else "dict".

Section Hash.
(* hashlib.md5(...).hexdigest() encoded; an oracle *)
Context (md5 : string -> string).

(* utils/hashing.py:29-89 calchash *)
Fixpoint calchash (depth : nat) (x : pyval) : result string :=
  if Nat.eqb depth 100 then Err RuntimeError
  else
    let depth := S depth in
    let! parts :=
      match x with
      | PNone => Ok [cls "NoneType"]
      | PStr _ s => Ok [cls "string"; s]
      | PNum n => Ok [cls "number"; num_text n]
      | PSeq k [] => Ok [cls (seqname k)]
      | PSeq k l => mapM (calchash depth) l
      | PArr0 v => let! h := calchash depth v in Ok [h]
      | PSet f [] => Ok [cls (setname f)]
      | PSet f l => let! hs := mapM (calchash depth) l in Ok (sorted str_leb hs)
      | PMap o [] => Ok [cls (mapname o)]
      | PMap o l =>
          let! ks := mapM (fun kv => calchash depth (fst kv)) l in
          let! vs := mapM (fun kv => calchash depth (snd kv)) l in
          if o then Ok (ks ++ vs)
          else match sort2lists str_leb ks vs with
               | Some (ks', vs') => Ok (ks' ++ vs')
               | None => Err ValueError
               end
      | PQty mag units =>
          let! h1 := calchash depth mag in
          let! h2 := (if Nat.eqb depth 100 then Err RuntimeError
                      else Ok (md5 (join [cls "string"; units]))) in
          Ok [h1; h2]
      end in
    Ok (md5 (join parts)).

(* utils/hashing.py:96-100; called with at least one hash *)
Definition mergehash (hashes : list string) : result string :=
  match hashes with
  | [] => Err IndexError
  | [h] => Ok h
  | _ => calchash 0 (PSeq KTuple (map (PStr true) hashes))
  end.

(* io/target.py:103-113, dependencies given by their checksums *)
Definition calc_checksum (dependencies : list string) (parameters : pyval) : result string :=
  let! h := calchash 0 parameters in
  mergehash (dependencies ++ [h]).
End Hash.
