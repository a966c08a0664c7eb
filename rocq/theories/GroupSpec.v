(* Specification of the names of result groups. *)
From Coq Require Import String.
From Verif Require Import GroupModel.
Close Scope string_scope.
Local Open Scope nat_scope.
Local Notation s := list_ascii_of_string.

Inductive kind : Type := Single (n : Z) | Sum (n : Z) | Named (t : chars) | Counters.
Definition digits1 (t : chars) : Prop := t <> [] /\ forallb digit t = true.
Definition inside (p t : chars) : Prop := exists a b, t = a ++ p ++ b.
Definition begins (p t : chars) : Prop := exists b, t = p ++ b.
(* what may stand before the name of a detector *)
Definition prefixes : list chars := [[]; s "xia"; s "detector"; s "xia" ++ s "detector"].
(* a name that is neither a number nor a sum nor empty *)
Definition free (t : chars) : Prop := t <> [] /\ forallb digit t = false /\ ~ begins (s "S") t.
(* the spellings of a group *)
Inductive spells : ginput -> kind -> Prop :=
| sp_num : forall n, (0 <= n)%Z -> spells (GNum n) (Single n)
| sp_digits : forall p t, In p prefixes -> digits1 t -> spells (GStr (p ++ t)) (Single (int_of t))
| sp_sum : forall p t, In p prefixes -> digits1 t -> spells (GStr (p ++ s "S" ++ t)) (Sum (int_of t))
| sp_counters : forall p, In p prefixes -> spells (GStr p) Counters
| sp_false : spells GFalse Counters
| sp_name : forall t, free t -> ~ begins (s "xia") t -> ~ begins (s "detector") t -> spells (GStr t) (Named t)
| sp_xia_name : forall t, free t -> ~ begins (s "detector") t -> spells (GStr (s "xia" ++ t)) (Named t)
| sp_detector_name : forall t, free t -> spells (GStr (s "detector" ++ t)) (Named t)
| sp_xia_detector_name : forall t, free t -> spells (GStr (s "xia" ++ s "detector" ++ t)) (Named t).
(* the name, number and category of a group *)
Definition is_group (k : kind) (g : grp) : Prop :=
  match k with
  | Single n => g = mkGrp (s "detector" ++ zpad 2 (dec n)) n 0
  | Sum n => g = mkGrp (s "detectorS" ++ dec n) n 1
  | Named t => g_name g = t /\ g_number g = (-1)%Z /\
      ((inside (s "parameters") t \/ inside (s "concentrations") t) /\ g_category g = 0%Z \/
       ~ inside (s "parameters") t /\ ~ inside (s "concentrations") t /\ g_category g = (-1)%Z)
  | Counters => g = mkGrp (s "counters") (-1) (-1)
  end.
(* the kinds whose printed name is read back *)
Definition printable (k : kind) : Prop :=
  match k with
  | Single n | Sum n => (0 <= n)%Z
  | Named t => free t /\ ~ begins (s "xia") t /\ ~ begins (s "detector") t
  | Counters => True
  end.
(* the characters int() accepts *)
Definition numeric (c : ascii) : bool := digit c || blank c || ascii_eqb c (ch 95) || ascii_eqb c (ch 45) || ascii_eqb c (ch 43).
