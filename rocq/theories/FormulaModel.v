(* Model of src/spectrocrunch/materials/compoundfromformula.py (FormulaParser).
   A string is a list of ASCII characters; every other character behaves as one that
   occurs nowhere in the grammar.  The pyparsing primitives used are modelled from their
   documentation: Word, Literal, Combine (no white space inside), Optional, MatchFirst,
   OneOrMore (greedy, no backtracking), Group; blanks (space, tab, newline, return) are
   skipped before a token.  Numbers are exact.  Python's recursion limit is not
   modelled. *)
From Coq Require Export Ascii.
From Verif Require Export StoichModel.
Local Open Scope nat_scope.

Definition chars : Type := list ascii.
Definition between (lo hi : nat) (c : ascii) : bool := (lo <=? nat_of_ascii c) && (nat_of_ascii c <=? hi).
Definition upper : ascii -> bool := between 65 90.          (* srange("[A-Z]") *)
Definition lower : ascii -> bool := between 97 122.         (* srange("[a-z]") *)
Definition digit : ascii -> bool := between 48 57.          (* pp.nums *)
Definition blank (c : ascii) : bool :=
  match nat_of_ascii c with 32 | 9 | 10 | 13 => true | _ => false end.
Definition lpar : ascii := ascii_of_nat 40.
Definition rpar : ascii := ascii_of_nat 41.
Definition point : ascii := ascii_of_nat 46.
Definition one : ascii := ascii_of_nat 49.

Fixpoint skip (s : chars) : chars :=
  match s with [] => [] | c :: s' => if blank c then skip s' else s end.
(* the longest prefix of digits *)
Fixpoint span (s : chars) : chars * chars :=
  match s with
  | [] => ([], [])
  | c :: s' => if digit c then let '(a, r) := span s' in (c :: a, r) else ([], s)
  end.

(* materials/compoundfromformula.py:12-15 element: Word([A-Z], exact=1) and optionally
   Word([a-z], max=1).  The behaviour of Word(max=1) when more letters follow depends on
   the version of pyparsing; here (3.x) it takes one letter *)
Definition element (s : chars) : option (chars * chars) :=
  match s with
  | c :: s' =>
      if upper c then
        match s' with
        | d :: s'' => if lower d then Some ([c; d], s'') else Some ([c], s')
        | [] => Some ([c], [])
        end
      else None
  | [] => None
  end.
(* 16-20 integer, point, fnumber *)
Definition fnumber (s : chars) : option (chars * chars) :=
  match span s with
  | ([], _) =>
      match s with
      | c :: s' =>
          if ascii_dec c point then
            match span s' with ([], _) => None | (b, r) => Some (c :: b, r) end
          else None
      | [] => None
      end
  | (a, c :: r) => if ascii_dec c point then let '(b, r') := span r in Some (a ++ c :: b, r') else Some (a, c :: r)
  | (a, []) => Some (a, [])
  end.

(* pp.ParseResults: nested lists of strings *)
Inductive parsed : Type := Tok (s : chars) | Grp (l : list parsed).
(* Out: the fuel is exhausted *)
Inductive outcome : Type := Out | Fail | Got (l : list parsed) (rest : chars).

(* 22-24 formula and atom *)
Fixpoint formula (n : nat) (s : chars) : outcome :=
  match n with
  | O => Out
  | S n =>
      let s := skip s in
      let atom :=
        match element s with
        | Some (e, r) => Got [Tok e] r
        | None =>
            match s with
            | c :: r =>
                if ascii_dec c lpar then
                  match formula n r with
                  | Got l r' =>
                      match skip r' with
                      | c' :: r'' => if ascii_dec c' rpar then Got [Grp l] r'' else Fail
                      | [] => Fail
                      end
                  | o => o
                  end
                else Fail
            | [] => Fail
            end
        end in
      match atom with
      | Got a r =>
          let '(m, r') := match fnumber (skip r) with Some (m, r') => (m, r') | None => ([one], r) end in
          let p := Grp (a ++ [Tok m]) in
          match formula n r' with
          | Got l r'' => Got (p :: l) r''
          | Fail => Got [p] r'
          | Out => Out
          end
      | o => o
      end
  end.

(* str.isalpha and float() of a decimal string without exponent *)
Definition alpha (c : ascii) : bool := upper c || lower c.
Definition isalpha (s : chars) : bool := match s with [] => false | _ => forallb alpha s end.
Definition digit_value (c : ascii) : Z := (Z.of_nat (nat_of_ascii c) - 48)%Z.
Definition int_value (s : chars) : Z := fold_left (fun v c => (10 * v + digit_value c)%Z) s 0%Z.
Definition float_of (s : chars) : result Qc :=
  match span s with
  | ([], []) => Err ValueError
  | (a, []) => Ok (Qc_of_Z (int_value a))
  | (a, c :: r) =>
      if ascii_dec c point then
        match span r with
        | ([], []) => if (length a =? 0) then Err ValueError else Ok (Qc_of_Z (int_value a))
        | (b, []) => Ok (Qc_of_Z (int_value a) + Qc_of_Z (int_value b) / Qc_of_Z (10 ^ Z.of_nat (length b)))%Qc
        | _ => Err ValueError
        end
      else Err ValueError
  end.

Definition chars_eqb (a b : chars) : bool := if list_eq_dec ascii_dec a b then true else false.
Definition counts : Type := list (chars * Qc).
Definition last_of {A} (l : list A) : result A :=
  match rev l with x :: _ => Ok x | [] => Err IndexError end.

(* 27-47 parseresult; self.elements is passed on *)
Fixpoint parseresult (p : parsed) (mult : Qc) (d : counts) {struct p} : result counts :=
  match p with
  | Grp l =>
      let! x := last_of l in
      let! mult :=
        match x with
        | Tok t => if isalpha t then Ok mult else let! q := float_of t in Ok (mult * q)%Qc
        | Grp _ => Ok mult
        end in
      (fix each (l : list parsed) (d : counts) {struct l} : result counts :=
         match l with
         | [] => Ok d
         | r :: l => let! d := parseresult r mult d in each l d
         end) l d
  | Tok t =>
      let! c := last_of t in
      if alpha c then Ok (dict_add chars_eqb d t mult) else Ok d
  end.

(* 49-53 eval; a pyparsing.ParseException is FormatError.  None: the fuel is exhausted *)
Definition eval (s : chars) : option (result counts) :=
  match formula (S (length s)) s with
  | Out => None
  | Fail => Some (Err FormatError)
  | Got l _ => Some (parseresult (Grp l) 1 [])
  end.
