(* Vocabulary for spec commands: words separated by blanks, numbers in decimal notation, and what the words of a command mean. *)
From Coq Require Import String QArith Qcanon.
From Verif Require Export NameSpec ScanModel.
Local Open Scope nat_scope.

(* white space of regular expressions *)
Definition blank (c : ascii) : Prop := In (nat_of_ascii c) [9; 10; 11; 12; 13; 28; 29; 30; 31; 32].
(* words with white space between them, and whatever follows the last one *)
Inductive laid : list chars -> chars -> chars -> Prop :=
| Laid_last : forall w tail, laid [w] tail (w ++ tail)
| Laid_word : forall w b ws tail t, b <> [] -> Forall blank b -> laid ws tail t -> laid (w :: ws) tail (w ++ b ++ t).
(* the last word ends *)
Definition ends (tail : chars) : Prop := match tail with [] => True | c :: _ => blank c end.

Definition letter (c : ascii) : Prop := (65 <= nat_of_ascii c <= 90) \/ (97 <= nat_of_ascii c <= 122).
Definition motor (w : chars) : Prop := w <> [] /\ Forall letter w.
Definition motornum (w : chars) : Prop := w <> [] /\ Forall (fun c => letter c \/ digit c = true) w.
Definition natural (w : chars) (n : Z) : Prop := w <> [] /\ digits w /\ value w = n.
(* 12, .5, 12.5 *)
Inductive unsigned : chars -> Qc -> Prop :=
| Whole : forall d, d <> [] -> digits d -> unsigned d (Qc_of_Z (value d))
| Pointed : forall a b, digits a -> b <> [] -> digits b ->
    unsigned (a ++ ch 46 :: b) (Qc_of_Z (value a) + Qc_of_Z (value b) / Qc_of_Z (10 ^ Z.of_nat (length b)))%Qc.
Inductive decimal : chars -> Qc -> Prop :=
| Bare : forall w x, unsigned w x -> decimal w x
| Positive : forall w x, unsigned w x -> decimal (ch 43 :: w) x
| Negative : forall w x, unsigned w x -> decimal (ch 45 :: w) (- x)%Qc.

Definition area (name mf : chars) (sf ef : Qc) (knf : chars) (nf : Z) (ms : chars) (ss es : Qc) (ns : Z) (time : field) : dict :=
  [(txt "name", FText name); (txt "motfast", FText mf); (txt "startfast", FNum sf); (txt "endfast", FNum ef); (knf, FInt nf);
   (txt "motslow", FText ms); (txt "startslow", FNum ss); (txt "endslow", FNum es); (txt "nstepsslow", FInt ns); (txt "time", time)].
Definition line (name mf : chars) (sf ef : Qc) (knf : chars) (nf : Z) (time : field) : dict :=
  [(txt "name", FText name); (txt "motfast", FText mf); (txt "startfast", FNum sf); (txt "endfast", FNum ef); (knf, FInt nf); (txt "time", time)].
(* the meaning of the words of a command *)
Inductive says : list chars -> dict -> Prop :=
| Zapimage : forall mf a sf b ef c nf ms d ss e es f ns g t, motor mf -> decimal a sf -> decimal b ef -> natural c nf ->
    motor ms -> decimal d ss -> decimal e es -> natural f ns -> natural g t ->
    says [txt "zapimage"; mf; a; b; c; ms; d; e; f; g] (area (txt "zapimage") mf sf ef (txt "npixelsfast") nf ms ss es ns (FMs (Qc_of_Z t)))
| Zapimage_old : forall mf a sf b ef c nf ms d ss e es f ns g t, motor mf -> decimal a sf -> decimal b ef -> natural c nf ->
    motor ms -> decimal d ss -> decimal e es -> natural f ns -> natural g t ->
    says [txt "zapimage"; mf; a; b; c; g; ms; d; e; f] (area (txt "zapimage") mf sf ef (txt "npixelsfast") nf ms ss es ns (FMs (Qc_of_Z t)))
| Puzzle : forall mf a sf b ef c nf ms d ss e es f ns g t, motornum mf -> decimal a sf -> decimal b ef -> natural c nf ->
    motornum ms -> decimal d ss -> decimal e es -> natural f ns -> natural g t ->
    says [txt "puzzle"; mf; a; b; c; ms; d; e; f; g] (area (txt "puzzle") mf sf ef (txt "npixelsfast") nf ms ss es ns (FMs (Qc_of_Z t)))
| Mesh : forall mf a sf b ef c nf ms d ss e es f ns g t, motor mf -> decimal a sf -> decimal b ef -> natural c nf ->
    motor ms -> decimal d ss -> decimal e es -> natural f ns -> decimal g t ->
    says [txt "mesh"; mf; a; b; c; ms; d; e; f; g] (area (txt "mesh") mf sf ef (txt "nstepsfast") nf ms ss es ns (FSec t))
| Zapenergy : forall s c n g t, s = txt "SUM" \/ s = txt "SUM2" -> natural c n -> decimal g t ->
    says [txt "zapenergy"; s; c; g] [(txt "name", FText (txt "zapenergy")); (txt "repeats", FInt n); (txt "time", FMs t)]
| Zapline : forall mf a sf b ef c nf g t, motor mf -> decimal a sf -> decimal b ef -> natural c nf -> decimal g t ->
    says [txt "zapline"; mf; a; b; c; g] (line (txt "zapline") mf sf ef (txt "npixelsfast") nf (FMs t))
| Ascan : forall mf a sf b ef c nf g t, motor mf -> decimal a sf -> decimal b ef -> natural c nf -> decimal g t ->
    says [txt "ascan"; mf; a; b; c; g] (line (txt "ascan") mf sf ef (txt "nstepsfast") nf (FSec t)).
(* the same dictionary *)
Definition same_dict (a b : dict) : Prop := forall k, lookup chars_eqb k a = lookup chars_eqb k b.
(* the name of the command is followed by a space *)
Definition named (ws : list chars) (cmd : chars) : Prop := match ws with w :: _ => exists r, cmd = w ++ ch 32 :: r | [] => False end.
