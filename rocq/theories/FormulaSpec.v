(* Chemical formulas *)
From Verif Require Export FormulaModel StoichSpec.
Local Open Scope Qc_scope.

(* a formula: elements and groups, each with a multiplier *)
Inductive part : Type := El (symbol : chars) (q : Qc) | Gr (f : list part) (q : Qc).
(* the number of atoms of the element: over all occurrences, the product of all
   multipliers *)
Fixpoint count (e : chars) (p : part) : Qc :=
  match p with
  | El s q => if chars_eqb s e then q else 0
  | Gr f q => q * qsum (map (count e) f)
  end.
Definition counted (e : chars) (f : list part) : Qc := qsum (map (count e) f).

(* how it is written *)
Definition blanks (s : chars) : Prop := Forall (fun c => blank c = true) s.
Definition all_digits (s : chars) : Prop := Forall (fun c => digit c = true) s.
Inductive symbol : chars -> Prop :=
| symbol1 c : upper c = true -> symbol [c]
| symbol2 c d : upper c = true -> lower d = true -> symbol [c; d].
Fixpoint decimal (s : chars) : Z :=
  match s with [] => 0%Z | c :: s' => (digit_value c * 10 ^ Z.of_nat (length s') + decimal s')%Z end.
Definition decimals (s : chars) : Qc := Qc_of_Z (decimal s) / Qc_of_Z (10 ^ Z.of_nat (length s)).
Inductive numeral : chars -> Qc -> Prop :=
| num_int a : a <> [] -> all_digits a -> numeral a (Qc_of_Z (decimal a))
| num_dec a b : a <> [] -> all_digits a -> all_digits b -> numeral (a ++ point :: b) (Qc_of_Z (decimal a) + decimals b)
| num_frac b : b <> [] -> all_digits b -> numeral (point :: b) (decimals b).
Inductive multiplier : chars -> Qc -> Prop :=
| mult_none : multiplier [] 1
| mult_num w s q : blanks w -> numeral s q -> multiplier (w ++ s) q.
Inductive writes : chars -> list part -> Prop :=
| writes_one s p : writes_part s p -> writes s [p]
| writes_more s p t f : writes_part s p -> writes t f -> writes (s ++ t) (p :: f)
with writes_part : chars -> part -> Prop :=
| writes_el w s m q : blanks w -> symbol s -> multiplier m q -> writes_part (w ++ s ++ m) (El s q)
| writes_gr w s w' m f q : blanks w -> writes s f -> blanks w' -> multiplier m q ->
    writes_part (w ++ lpar :: s ++ w' ++ rpar :: m) (Gr f q).

(* the numbers of atoms are those of the formula *)
Definition counts_of (f : list part) (d : counts) : Prop :=
  no_repeats chars_eqb (map fst d) /\ forall e, share chars_eqb e d = counted e f.
(* a character that cannot occur in a formula *)
Definition foreign (c : ascii) : Prop :=
  upper c = false /\ lower c = false /\ digit c = false /\ blank c = false /\ c <> lpar /\ c <> point.
