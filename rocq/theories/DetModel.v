(* Model of src/spectrocrunch/detectors/base.py: the attenuators of a detector (class Material) and the state of
   SolidState. A is an attenuator: a material with a thickness in cm (numbers and quantities are the same to the
   code after units.umagnitude). Names are texts of ASCII characters. Not modelled: the conversion to and from
   PyMca and fisx, texts for the user. The numbers (absorbance and so on) are in DetOptics.v. *)
From Coq Require Import String.
From Verif Require Export Text.

Definition DETECTOR : chars := txt "Detector".              (* 15 *)
Definition ATMOSPHERE : chars := txt "Atmosphere".          (* 16 *)
Definition BEAMFILTER : chars := txt "BeamFilter".

(* str.lower() on ASCII letters *)
Definition lower_char (c : ascii) : ascii :=
  let n := Z.of_nat (nat_of_ascii c) in if (65 <=? n) && (n <=? 90) then ch (Z.to_nat (n + 32)) else c.
(* the text after a prefix *)
Fixpoint after (p s : chars) : option chars :=
  match p, s with
  | [], _ => Some s
  | c :: p', d :: s' => if ascii_eqb c d then after p' s' else None
  | _ :: _, [] => None
  end.
(* 183-184: re.compile(r"^beamfilter(\d+)$").match(name.lower()); the number. A name that ends with a line break is not modelled. *)
Definition match_beamfilter (name : chars) : option Z :=
  match after (txt "beamfilter") (map lower_char name) with
  | Some (c :: q) => if forallb digit (c :: q) then Some (int_of (c :: q)) else None
  | _ => None
  end.
(* 186-188 *)
Definition isbeamfilter (name : chars) (include_atmosphere : bool) : bool :=
  let isatm := chars_eqb name ATMOSPHERE && include_atmosphere in
  match match_beamfilter name with Some _ => true | None => false end || isatm.
(* 162-167 *)
Definition isdetectorfilter (name : chars) (include_atmosphere : bool) : bool :=
  negb (isbeamfilter name false) && negb (chars_eqb name DETECTOR) && (negb (chars_eqb name ATMOSPHERE) || negb include_atmosphere).

Section Attenuators.
Variable A : Type.
Definition dict : Type := list (chars * A).
(* own: _attenuators. around: what the geometry says about the atmosphere, if it has both a material and a distance that is not zero (79-84) *)
Record det : Type := { own : dict; around : option A }.
(* 77-87: the property updates the dictionary *)
Definition refresh (d : det) : det :=
  match around d with
  | Some a => {| own := assign chars_eqb ATMOSPHERE a (own d); around := around d |}
  | None => d
  end.
Definition attenuators (d : det) : dict := own (refresh d).
(* 40-42 *)
Definition addattenuator (name : chars) (a : A) (d : det) : det := {| own := assign chars_eqb name a (own d); around := around d |}.
(* 190-196 *)
Definition nextbeamfilter (d : det) : chars :=
  let i := fold_left (fun i e => match match_beamfilter (fst e) with Some n => Z.max i n | None => i end) (attenuators d) 0 in
  BEAMFILTER ++ str_int i.
(* 48-53: a name that is None or empty is replaced *)
Definition addbeamfilter (name : option chars) (a : A) (d : det) : result det :=
  match name with
  | None | Some [] => let n := nextbeamfilter d in Ok (addattenuator n a (refresh d))
  | Some n => if isbeamfilter n false then Ok (addattenuator n a d) else Err ValueError
  end.
(* 44-46 *)
Definition addsamplecover (name : chars) (a : A) (d : det) : result det := addbeamfilter None a (addattenuator name a d).
(* 55-58 *)
Definition adddetectorfilter (name : chars) (a : A) (d : det) : result det :=
  if isbeamfilter name false then Err ValueError else Ok (addattenuator name a d).
(* 60-61 *)
Definition removeattenuator (name : chars) (d : det) : det := {| own := remove_key chars_eqb name (own d); around := around d |}.
(* 63-66 *)
Definition removebeamfilters (d : det) : det :=
  let d := refresh d in
  let names := filter (fun n => isbeamfilter n false) (keys (own d)) in
  fold_left (fun d n => removeattenuator n d) names d.
(* 68-75 *)
Definition removedetectorfilters (include_atmosphere : bool) (d : det) : det :=
  let d := refresh d in
  let names := filter (fun n => isdetectorfilter n include_atmosphere) (keys (own d)) in
  fold_left (fun d n => removeattenuator n d) names d.
(* 169-181 *)
Definition beamfilters (include_atmosphere : bool) (d : det) : list A :=
  map snd (filter (fun e => isbeamfilter (fst e) include_atmosphere) (attenuators d)).
Definition detectorfilters (include_atmosphere : bool) (d : det) : list A :=
  map snd (filter (fun e => isdetectorfilter (fst e) include_atmosphere) (attenuators d)).
(* 117-123 *)
Definition hasmaterial (d : det) : bool := mem chars_eqb DETECTOR (attenuators d).
Definition material (d : det) : result A := match lookup chars_eqb DETECTOR (attenuators d) with Some a => Ok a | None => Err KeyError end.
End Attenuators.
Arguments own {A} d. Arguments around {A} d. Arguments refresh {A} d. Arguments attenuators {A} d. Arguments addattenuator {A}. Arguments nextbeamfilter {A}.
Arguments addbeamfilter {A}. Arguments addsamplecover {A}. Arguments adddetectorfilter {A}. Arguments removeattenuator {A}. Arguments removebeamfilters {A}.
Arguments removedetectorfilters {A}. Arguments beamfilters {A}. Arguments detectorfilters {A}. Arguments hasmaterial {A}. Arguments material {A}. Arguments Build_det {A}.

(* ---- SolidState: 279-325. An attribute that was never set is None. ---- *)
Record solid : Type := { ehole : option Z; escape : option bool; pulse_processing_time : option Z }.
Definition solid_init (e : option Z) (esc : bool) (p : Z) : solid := {| ehole := e; escape := Some esc; pulse_processing_time := Some p |}.
(* 286-288 *)
Definition pileup (s : solid) : result bool := match pulse_processing_time s with Some p => Ok (negb (p =? 0)) | None => Err AttributeError end.
(* 301-308: what pickle and jsonpickle keep *)
Definition getstate (s : solid) : option Z := ehole s.
Definition setstate (state : option Z) : solid := {| ehole := state; escape := None; pulse_processing_time := None |}.
(* 310-316, the part about ehole *)
Definition solid_eqb (a b : solid) : bool :=
  match ehole a, ehole b with Some x, Some y => x =? y | None, None => true | _, _ => false end.
