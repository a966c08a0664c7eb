(* Text as a list of ASCII characters, decimal numbers, and the two Python facilities the
   naming code relies on: str.format with one integer argument, and the small part of the
   re module that io/target.py uses.  Both are modelled from the Python documentation.
   Characters outside ASCII are not modelled: they behave like any character that is
   neither a digit nor special. *)
From Coq Require Import String.
From Coq Require Export Ascii.
From Verif Require Export Base.

Definition chars : Type := list ascii.
Definition txt (s : string) : chars := list_ascii_of_string s.
Definition ch (n : nat) : ascii := ascii_of_nat n.
Definition chars_eqb (a b : chars) : bool := if list_eq_dec ascii_dec a b then true else false.
Definition ascii_eqb (a b : ascii) : bool := if ascii_dec a b then true else false.

(* [0-9] *)
Definition digit (c : ascii) : bool :=
  (48 <=? Z.of_nat (nat_of_ascii c)) && (Z.of_nat (nat_of_ascii c) <=? 57).
Definition digit_val (c : ascii) : Z := Z.of_nat (nat_of_ascii c) - 48.
Definition digit_char (v : Z) : ascii := ch (Z.to_nat (48 + v)).

(* int(text) for text of digits *)
Definition int_of (l : chars) : Z := fold_left (fun v c => 10 * v + digit_val c) l 0.

(* str(n) for n >= 0 *)
Fixpoint dec_aux (fuel : nat) (n : Z) (acc : chars) : chars :=
  match fuel with
  | O => acc
  | S f =>
      let acc := digit_char (n mod 10) :: acc in
      if n / 10 =? 0 then acc else dec_aux f (n / 10) acc
  end.
Definition dec (n : Z) : chars := dec_aux (S (Z.to_nat (Z.log2 n))) n [].
(* str(n) for an integer *)
Definition str_int (n : Z) : chars := if n <? 0 then ch 45 :: dec (- n) else dec n.

(* format(n, "0wd"): zeros between the sign and the digits up to width w *)
Definition zpad (w : nat) (l : chars) : chars := repeat (ch 48) (w - length l) ++ l.
Definition format_int (w : nat) (n : Z) : chars :=
  if n <? 0 then ch 45 :: zpad (w - 1) (dec (- n)) else zpad w (dec n).

(* ---- str.format(num) ---- *)
(* Fmt: the text; FErr: an exception; FOther: the format string has a replacement field
   other than {} {:d} {:0wd} with w > 0, which is outside the model *)
Inductive fres : Type := Fmt (s : chars) | FErr (e : exn) | FOther.

Definition fapp (a : chars) (r : fres) : fres :=
  match r with Fmt s => Fmt (a ++ s) | _ => r end.

Definition lbrace : ascii := ch 123.
Definition rbrace : ascii := ch 125.
Definition colon : ascii := ch 58.
Definition letter_d : ascii := ch 100.

(* the text between the braces: Some 0 for {} and {:d}, Some w for {:0wd} *)
Definition field_width (f : chars) : option nat :=
  match f with
  | [] => Some O
  | c :: f' =>
      if ascii_eqb c colon then
        match rev f' with
        | d :: w =>
            if ascii_eqb d letter_d then
              match rev w with
              | [] => Some O
              | z :: ds =>
                  if ascii_eqb z (ch 48) && forallb digit ds && (0 <? int_of ds)
                  then Some (Z.to_nat (int_of ds)) else None
              end
            else None
        | [] => None
        end
      else None
  end.

(* field = None: literal text; field = Some acc: inside a replacement field, acc is its
   text so far, reversed.  used: the only argument was already consumed. *)
Fixpoint format_go (num : Z) (used : bool) (field : option chars) (s : chars) : fres :=
  match field with
  | None =>
      match s with
      | [] => Fmt []
      | c :: r =>
          if ascii_eqb c lbrace then
            match r with
            | d :: r' => if ascii_eqb d lbrace then fapp [lbrace] (format_go num used None r')
                         else format_go num used (Some []) r
            | [] => FErr ValueError
            end
          else if ascii_eqb c rbrace then
            match r with
            | d :: r' => if ascii_eqb d rbrace then fapp [rbrace] (format_go num used None r')
                         else FErr ValueError
            | [] => FErr ValueError
            end
          else fapp [c] (format_go num used None r)
      end
  | Some acc =>
      match s with
      | [] => FErr ValueError
      | c :: r =>
          if ascii_eqb c rbrace then
            match field_width (rev acc) with
            | Some w => if used then FErr IndexError
                        else fapp (format_int w num) (format_go num true None r)
            | None => FOther
            end
          else if ascii_eqb c lbrace then FOther
          else format_go num used (Some (c :: acc)) r
      end
  end.
Definition pyformat (fmt : chars) (num : Z) : fres := format_go num false None fmt.

(* ---- re ---- *)
(* re.finditer("[0-9]+", s): the maximal runs of digits as (start, end) *)
Fixpoint runs (pos : nat) (cur : option nat) (s : chars) : list (nat * nat) :=
  match s with
  | [] => match cur with Some a => [(a, pos)] | None => [] end
  | c :: s' =>
      if digit c then runs (S pos) (Some (match cur with Some a => a | None => pos end)) s'
      else match cur with
           | Some a => (a, pos) :: runs (S pos) None s'
           | None => runs (S pos) None s'
           end
  end.
Definition finditer_digits (s : chars) : list (nat * nat) := runs 0 None s.

(* re.escape (Python >= 3.7): a backslash before each of ()[]{}?*+-|^$\.&~# and white space *)
Definition special : list nat :=
  [40; 41; 91; 93; 123; 125; 63; 42; 43; 45; 124; 94; 36; 92; 46; 38; 126; 35;
   32; 9; 10; 13; 11; 12]%nat.
Definition is_special (c : ascii) : bool := existsb (Nat.eqb (nat_of_ascii c)) special.
Definition backslash : ascii := ch 92.
Fixpoint re_escape (s : chars) : chars :=
  match s with
  | [] => []
  | c :: s' => if is_special c then backslash :: c :: re_escape s' else c :: re_escape s'
  end.

(* the constructs of the patterns built by io/target.py:regex *)
Inductive item : Type :=
| Bol | Eol | Lit (c : ascii)
| Digits                                     (* [0-9]+ *)
| OptDot.                                    (* (\.[0-9]+)? *)

Fixpoint starts (p s : chars) : option chars :=
  match p, s with
  | [], _ => Some s
  | a :: p', b :: s' => if ascii_eqb a b then starts p' s' else None
  | _ :: _, [] => None
  end.

Definition pat_digits : chars := txt "[0-9]+".
Definition pat_optdot : chars := txt "(\.[0-9]+)?".

(* re.compile; None: a construct outside the model *)
Fixpoint re_parse (fuel : nat) (p : chars) : option (list item) :=
  match fuel with
  | O => None
  | S n =>
      let cons i r := match re_parse n r with Some l => Some (i :: l) | None => None end in
      match p with
      | [] => Some []
      | c :: r =>
          match starts pat_digits p with
          | Some r' => cons Digits r'
          | None =>
              match starts pat_optdot p with
              | Some r' => cons OptDot r'
              | None =>
                  if ascii_eqb c backslash then
                    match r with
                    | d :: r' => if is_special d then cons (Lit d) r' else None
                    | [] => None
                    end
                  else if ascii_eqb c (ch 94) then cons Bol r
                  else if ascii_eqb c (ch 36) then cons Eol r
                  else if existsb (Nat.eqb (nat_of_ascii c)) [40; 41; 91; 123; 63; 42; 43; 124; 46]%nat
                  then None
                  else cons (Lit c) r
              end
          end
      end
  end.
Definition re_compile (p : chars) : option (list item) := re_parse (S (length p)) p.

Definition newline : ascii := ch 10.
Definition at_end (s : chars) : bool :=
  match s with [] => true | [c] => ascii_eqb c newline | _ => false end.

(* one or more digits and then k *)
Fixpoint digits1 (k : chars -> bool) (s : chars) : bool :=
  match s with
  | [] => false
  | c :: s' => digit c && (digits1 k s' || k s')
  end.

(* pattern.match(s) is not None; bol: at the beginning of the text *)
Fixpoint re_match (bol : bool) (p : list item) (s : chars) : bool :=
  match p with
  | [] => true
  | Bol :: p' => bol && re_match bol p' s
  | Eol :: p' => at_end s && re_match bol p' s
  | Lit c :: p' => match s with d :: s' => ascii_eqb c d && re_match false p' s' | [] => false end
  | Digits :: p' => digits1 (re_match false p') s
  | OptDot :: p' =>
      match s with
      | d :: s' => ascii_eqb d (ch 46) && digits1 (re_match false p') s'
      | [] => false
      end || re_match bol p' s
  end.
