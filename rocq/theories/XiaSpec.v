(* Specifications of the names of XIA files, of the selection of detectors and of groups. *)
From Coq Require Import String.
From Verif Require Import XiaModel.
From Coq Require Export Permutation Sorted.
Close Scope string_scope.
Local Open Scope nat_scope.
Local Notation s := list_ascii_of_string.

(* ---- names ---- *)
Definition plain (t : chars) : Prop := ~ In newline t /\ ~ In (ch 47) t.
Definition occurs (p t : chars) : Prop := exists a b, t = a ++ p ++ b.
(* the file itself, or the file in a directory *)
Definition is_path (f t : chars) : Prop := f = t \/ exists dir, f = dir ++ ch 47 :: t.
(* the labels of spectra: xia and two characters, or mca *)
Definition spectrum_label (label : chars) : Prop :=
  label = s "mca" \/ exists a b, label = s "xia" ++ [a; b] /\ plain [a; b].
(* the label of a counter: the name of a counter and more *)
Definition counter_of (ctr label : chars) : Prop := exists x, label = ctr ++ x /\ x <> [].
(* the name of the counter is not found elsewhere *)
Definition unambiguous (before : list chars) (ctr radix label : chars) : Prop :=
  (forall c, In c before -> ~ occurs (s "_" ++ c) (radix ++ s "_" ++ label)) /\
  ~ occurs (s "_" ++ ctr) label.
(* four or more digits after an underscore *)
Definition numbered (t : chars) : Prop :=
  exists a d, t = a ++ s "_" ++ d /\ forallb digit d = true /\ 4 <= length d.

(* these four parts, with the base and detector of the label *)
Definition named (radix : chars) (m l : Z) (label : chars) : xname :=
  mkName radix m l label (fst (parse_label label)) (snd (parse_label label)).

(* the order of the files: radix, map, line, label *)
Definition text_lt (a b : chars) : Prop := ProcModel.chars_ltb a b = true.
Definition before_key (a b : key) : Prop :=
  let '(r1, m1, l1, t1) := a in
  let '(r2, m2, l2, t2) := b in
  text_lt r1 r2 \/
  (r1 = r2 /\ ((m1 < m2)%Z \/ (m1 = m2 /\ ((l1 < l2)%Z \/ (l1 = l2 /\ text_lt t1 t2))))).
Definition not_after (a b : entry) : Prop := ~ before_key (entry_key b) (entry_key a).

(* ---- detectors ---- *)
(* the text an identifier stands for, after "xia" *)
Inductive denotes : ident -> chars -> Prop :=
| den_num : forall n, denotes (INum n) (format_int 2 n)
| den_digits : forall t, t <> [] -> forallb digit t = true -> denotes (IStr t) (format_int 2 (int_of t))
| den_full : forall t, denotes (IStr (s "xia" ++ t)) t
| den_other : forall t, existsb (fun c => negb (digit c)) t = true -> (forall u, t <> s "xia" ++ u) -> denotes (IStr t) t
| den_empty : denotes (IStr []) [].
(* the result keeps the files for which keep holds, in their order *)
Inductive selection (keep : xname -> Prop) : list chars -> list chars -> Prop :=
| sel_nil : selection keep [] []
| sel_keep : forall f o fs r, parse f = Ok o -> keep o -> selection keep fs r -> selection keep (f :: fs) (f :: r)
| sel_drop : forall f o fs r, parse f = Ok o -> ~ keep o -> selection keep fs r -> selection keep (f :: fs) r.

(* ---- groups ---- *)
Definition flat1 {K} (d : list (K * list chars)) : list chars := concat (map snd d).
Definition flat2 {K L} (d : list (K * list (L * list chars))) : list chars := concat (map (fun x => flat1 (snd x)) d).
Definition flat3 {K L M} (d : list (K * list (L * list (M * list chars)))) : list chars :=
  concat (map (fun x => flat2 (snd x)) d).
Definition name_key (o : xname) : key := (x_radix o, x_map o, x_line o, x_label o).
(* files that are not out of order *)
Definition in_order (f g : chars) : Prop :=
  forall a b, parse f = Ok a -> parse g = Ok b -> ~ before_key (name_key b) (name_key a).
Definition key_dec (a b : key) : {a = b} + {a <> b}.
Proof. repeat decide equality. Defined.
Definition has_key (k : key) (f : chars) : bool :=
  match parse f with Ok o => if key_dec (name_key o) k then true else false | Err _ => false end.
(* a list with at least one file, all with property P *)
Definition group_of (P : xname -> Prop) (F : list chars) : Prop :=
  F <> [] /\ forall f, In f F -> exists o, parse f = Ok o /\ P o.
Definition lines_of (P : xname -> Prop) (L : list (Z * list chars)) : Prop :=
  L <> [] /\ StronglySorted Z.lt (map fst L) /\
  forall l F, In (l, F) L -> group_of (fun o => P o /\ x_line o = l) F.
Definition maps_of (P : xname -> Prop) (M : list (Z * list (Z * list chars))) : Prop :=
  M <> [] /\ StronglySorted Z.lt (map fst M) /\
  forall m L, In (m, L) M -> lines_of (fun o => P o /\ x_map o = m) L.
Definition radices_of (D : list (chars * list (Z * list (Z * list chars)))) : Prop :=
  StronglySorted text_lt (map fst D) /\
  forall r M, In (r, M) D -> maps_of (fun o => x_radix o = r) M.
Definition parses (f : chars) : Prop := exists o, parse f = Ok o.

(* ---- selected detectors ---- *)
(* the file has the label an identifier stands for *)
Definition labelled (i : ident) (o : xname) : Prop := exists d, denotes i d /\ x_label o = s "xia" ++ d.
Definition chosen (holds : ident -> xname -> Prop) (exclude include : list ident) (o : xname) : Prop :=
  (forall i, In i exclude -> ~ holds i o) /\ (include = [] \/ exists i, In i include /\ holds i o).
(* the ways to write the detector with number n: n, its digits with any zeros in front, or these after "xia" *)
Inductive writes : ident -> Z -> Prop :=
| wr_num : forall n, writes (INum n) n
| wr_digits : forall t, t <> [] -> forallb digit t = true -> writes (IStr t) (int_of t).
Inductive writes_xia : ident -> Z -> Prop :=
| wx_plain : forall i n, writes i n -> writes_xia i n
| wx_xia : forall t, t <> [] -> forallb digit t = true -> writes_xia (IStr (s "xia" ++ t)) (int_of t).
(* the detector of the file has that number *)
Definition numbered_as (i : ident) (o : xname) : Prop := exists n, writes_xia i n /\ int_of (x_det o) = n.
Definition two_digits (t : chars) : Prop := length t = 2 /\ forallb digit t = true.
(* the detectors of a dictionary of files *)
Definition detectors_of (D : list (chars * list (chars * list chars))) : Prop :=
  NoDup (map fst D) /\
  forall d B, In (d, B) D -> NoDup (map fst B) /\
    forall b F, In (b, F) B -> group_of (fun o => x_det o = d /\ x_base o = b) F.
