(* Model of src/spectrocrunch/process/nxexpression.py: the expression parser (113-275) and the task
   that evaluates an expression for every signal (18-110).
   The grammar is that of 126-199 with the behaviour of pyparsing: white space is skipped before every
   token (not inside a number), alternatives are tried in order without going back once one of them
   matched, and what a parse action pushed stays on the stack when the alternative fails later.
   Values (arrays, numbers) and the numpy functions are parameters, collected in [alg].
   Variables are values already read; the cases of a variable that is a path or data set (255-265)
   are not modelled. *)
From Coq Require Import String.
From Verif Require Export Base Text.
From Verif Require IntegerBaseModel.
Close Scope string_scope.
Local Open Scope nat_scope.

(* ---- characters ---- *)
Definition code (c : ascii) : nat := nat_of_ascii c.
Definition is_space (c : ascii) : bool := existsb (Nat.eqb (code c)) [32; 10; 9; 13].
Definition letter (c : ascii) : bool := ((65 <=? code c) && (code c <=? 90)) || ((97 <=? code c) && (code c <=? 122)).
Definition upper (c : ascii) : ascii := if (97 <=? code c) && (code c <=? 122) then ch (code c - 32) else c.
Definition oneof (l : chars) (c : ascii) : bool := existsb (ascii_eqb c) l.
Definition signed (c : ascii) : bool := oneof (txt "+-") c || digit c.
Definition identchar (c : ascii) : bool := letter c || digit c || oneof (txt "_$") c.
Fixpoint skip (t : chars) : chars :=
  match t with c :: t' => if is_space c then skip t' else t | [] => [] end.
Fixpoint span (f : ascii -> bool) (t : chars) : chars * chars :=
  match t with
  | c :: t' => if f c then let '(a, r) := span f t' in (c :: a, r) else ([], t)
  | [] => ([], [])
  end.
(* pyparsing.Word *)
Definition word (init body : ascii -> bool) (t : chars) : option (chars * chars) :=
  match t with
  | c :: t' => if init c then let '(a, r) := span body t' in Some (c :: a, r) else None
  | [] => None
  end.
(* pyparsing.CaselessLiteral, p in upper case *)
Fixpoint istarts (p t : chars) : option chars :=
  match p, t with
  | [], _ => Some t
  | a :: p', b :: t' => if ascii_eqb a (upper b) then istarts p' t' else None
  | _ :: _, [] => None
  end.

(* ---- the grammar ---- *)
(* 145-153 *)
Definition fnumber (t : chars) : option (chars * chars) :=
  match word signed digit t with
  | None => None
  | Some (a, r) =>
      let '(a, r) := match starts (txt ".") r with
                     | Some r1 => let '(b, r2) := span digit r1 in (a ++ txt "." ++ b, r2)
                     | None => (a, r)
                     end in
      match istarts (txt "E") r with
      | Some r1 => match word signed digit r1 with
                   | Some (w, r2) => Some (a ++ txt "E" ++ w, r2)
                   | None => Some (a, r)
                   end
      | None => Some (a, r)
      end
  end.
Definition uminus : chars := txt "unary -".
(* 158 var *)
Definition variable (t : chars) (st : list chars) : option chars * list chars :=
  match starts (txt "var_") t with
  | Some r => match word letter letter (skip r) with
              | Some (x, r') => (Some r', st ++ [x])
              | None => (None, st)
              end
  | None => (None, st)
  end.
Definition sign (t : chars) : option ascii * chars :=
  match t with
  | c :: r => if oneof (txt "-+") c then (Some c, skip r) else (None, t)
  | [] => (None, [])
  end.
(* 122-124 *)
Definition push_minus (s : option ascii) (st : list chars) : list chars :=
  match s with Some c => if ascii_eqb c (ch 45) then st ++ [uminus] else st | None => st end.
(* what is left of the text (None: no match) and the stack, the last pushed last *)
Fixpoint expr (n : nat) (t : chars) (st : list chars) {struct n} : option chars * list chars :=   (* 193-195 *)
  match n with
  | O => (None, st)
  | S n => match term n t st with
           | (Some r, st) => eloop n r st
           | (None, st) => (None, st)
           end
  end
with eloop (n : nat) (t : chars) (st : list chars) {struct n} : option chars * list chars :=
  match n with
  | O => (None, st)
  | S n => match skip t with
           | c :: t' => if oneof (txt "+-") c
                        then match term n t' st with
                             | (Some r, st) => eloop n r (st ++ [[c]])
                             | (None, st) => (Some t, st)
                             end
                        else (Some t, st)
           | [] => (Some t, st)
           end
  end
with term (n : nat) (t : chars) (st : list chars) {struct n} : option chars * list chars :=       (* 190-192 *)
  match n with
  | O => (None, st)
  | S n => match factor n t st with
           | (Some r, st) => tloop n r st
           | (None, st) => (None, st)
           end
  end
with tloop (n : nat) (t : chars) (st : list chars) {struct n} : option chars * list chars :=
  match n with
  | O => (None, st)
  | S n => match skip t with
           | c :: t' => if oneof (txt "*/") c
                        then match factor n t' st with
                             | (Some r, st) => tloop n r (st ++ [[c]])
                             | (None, st) => (Some t, st)
                             end
                        else (Some t, st)
           | [] => (Some t, st)
           end
  end
with factor (n : nat) (t : chars) (st : list chars) {struct n} : option chars * list chars :=     (* 185-188 *)
  match n with
  | O => (None, st)
  | S n => match atom n t st with
           | (Some r, st) => floop n r st
           | (None, st) => (None, st)
           end
  end
with floop (n : nat) (t : chars) (st : list chars) {struct n} : option chars * list chars :=
  match n with
  | O => (None, st)
  | S n => match skip t with
           | c :: t' => if oneof (txt "^") c
                        then match factor n t' st with
                             | (Some r, st) => floop n r (st ++ [[c]])
                             | (None, st) => (Some t, st)
                             end
                        else (Some t, st)
           | [] => (Some t, st)
           end
  end
with atom (n : nat) (t : chars) (st : list chars) {struct n} : option chars * list chars :=       (* 171-180 *)
  match n with
  | O => (None, st)
  | S n =>
      let '(sg, t1) := sign (skip t) in
      match basic n t1 st with
      | (Some r, st) => (Some r, push_minus sg st)
      | (None, st) =>
          match starts (txt "(") t1 with
          | Some r1 =>
              match expr n r1 st with
              | (Some r2, st) => match starts (txt ")") (skip r2) with
                                 | Some r3 => (Some r3, push_minus sg st)
                                 | None => (None, st)
                                 end
              | (None, st) => (None, st)
              end
          | None => (None, st)
          end
      end
  end
with basic (n : nat) (t : chars) (st : list chars) {struct n} : option chars * list chars :=      (* 174-176 *)
  match n with
  | O => (None, st)
  | S n =>
      match istarts (txt "PI") t with
      | Some r => (Some r, st ++ [txt "PI"])
      | None =>
      match istarts (txt "E") t with
      | Some r => (Some r, st ++ [txt "E"])
      | None =>
      match fnumber t with
      | Some (a, r) => (Some r, st ++ [a])
      | None =>
      match word letter identchar t with
      | Some (f, r) =>
          match starts (txt "(") (skip r) with
          | Some r1 =>
              match expr n r1 st with
              | (Some r2, st) => match starts (txt ")") (skip r2) with
                                 | Some r3 => (Some r3, st ++ [f])
                                 | None => variable t st
                                 end
              | (None, st) => variable t st
              end
          | None => variable t st
          end
      | None => variable t st
      end end end end
  end.
(* parseString with parseAll=True: the stack, None for a ParseException *)
Definition parse (t : chars) : option (list chars) :=
  match expr (8 * length t + 9) t [] with
  | (Some r, st) => match skip r with [] => Some st | _ => None end
  | (None, _) => None
  end.

(* ---- evaluation ---- *)
Record alg (V : Type) : Type := mkAlg {
  v_add : V -> V -> result V; v_sub : V -> V -> result V; v_mul : V -> V -> result V;
  v_div : V -> V -> result V; v_pow : V -> V -> result V; v_neg : V -> result V;
  v_pi : V; v_e : V; v_zero : V;
  v_num : chars -> result V;                  (* dtype(text) *)
  v_fn : chars -> V -> result V;              (* the functions that make a new value *)
  v_nan : bool -> V -> result V }.            (* nanone (true), nanzero: the array after the replacement *)
Arguments v_add {V}. Arguments v_sub {V}. Arguments v_mul {V}. Arguments v_div {V}. Arguments v_pow {V}. Arguments v_neg {V}.
Arguments v_pi {V}. Arguments v_e {V}. Arguments v_zero {V}. Arguments v_num {V}. Arguments v_fn {V}. Arguments v_nan {V}.
Definition among (l : list chars) (x : chars) : bool := existsb (chars_eqb x) l.
(* 212-231 *)
Definition fn_names : list chars :=
  map txt ["sin"; "cos"; "tan"; "abs"; "trunc"; "round"; "sgn"; "max"; "min"; "mean"; "median"; "ln"; "sobel"]%string.
Definition nanone : chars := txt "nanone".
Definition nanzero : chars := txt "nanzero".
(* op in "+-*/^" *)
Fixpoint infix (p t : chars) : bool :=
  match starts p t with
  | Some _ => true
  | None => match t with [] => false | _ :: t' => infix p t' end
  end.
Section Eval.
Context {V : Type} (A : alg V).
Definition opn (op : chars) : V -> V -> result V :=      (* 204-210 *)
  if chars_eqb op (txt "+") then v_add A
  else if chars_eqb op (txt "-") then v_sub A
  else if chars_eqb op (txt "*") then v_mul A
  else if chars_eqb op (txt "/") then v_div A
  else if chars_eqb op (txt "^") then v_pow A
  else fun _ _ => Err KeyError.
Definition env : Type := list (chars * V).
Fixpoint get (x : chars) (m : env) : option V :=
  match m with [] => None | (y, v) :: m' => if chars_eqb x y then Some v else get x m' end.
Fixpoint put (x : chars) (v : V) (m : env) : env :=
  match m with [] => [(x, v)] | (y, w) :: m' => if chars_eqb x y then (x, v) :: m' else (y, w) :: put x v m' end.
(* the object is the one of a variable (Some) or a new one *)
Definition owner : Type := option chars.
(* 235-269: the value, its owner, what is left of the stack (last pushed first) and the variables,
   some changed by nanone and nanzero, which replace the NaN of their argument in place *)
Fixpoint eval_stack (n : nat) (s : list chars) (m : env) : result (V * owner * list chars * env) :=
  match n with
  | O => Err RuntimeError
  | S n =>
      match s with
      | [] => Err IndexError
      | op :: s =>
          if chars_eqb op uminus then
            let! (v, _, s, m) := eval_stack n s m in
            let! w := v_neg A v in Ok (w, None, s, m)
          else if infix op (txt "+-*/^") then
            let! (b, _, s, m) := eval_stack n s m in
            let! (a, _, s, m) := eval_stack n s m in
            let! w := opn op a b in Ok (w, None, s, m)
          else if chars_eqb (map upper op) (txt "PI") then Ok (v_pi A, None, s, m)
          else if chars_eqb (map upper op) (txt "E") then Ok (v_e A, None, s, m)
          else if chars_eqb op nanone || chars_eqb op nanzero then
            let! (v, o, s, m) := eval_stack n s m in
            let! w := v_nan A (chars_eqb op nanone) v in
            Ok (w, o, s, match o with Some x => put x w m | None => m end)
          else if among fn_names op then
            let! (v, _, s, m) := eval_stack n s m in
            let! w := v_fn A op v in Ok (w, None, s, m)
          else match op with
               | c :: _ =>
                   if letter c then
                     match get op m with
                     | Some v => Ok (v, Some op, s, m)
                     | None => Ok (v_zero A, None, s, m)
                     end
                   else let! v := v_num A op in Ok (v, None, s, m)
               | [] => Err IndexError
               end
      end
  end.
(* 271-275 *)
Definition eval (t : chars) (m : env) : result V :=
  match parse t with
  | None => Err FormatError                   (* ParseException *)
  | Some st => let! (v, _, _, _) := eval_stack (S (length st)) (rev st) m in Ok v
  end.

(* ---- the task ---- *)
(* 105-110: the texts between braces *)
Fixpoint fields (acc : option chars) (t : chars) : list chars :=
  match t with
  | [] => []
  | c :: t' =>
      match acc with
      | None => fields (if ascii_eqb c lbrace then Some [] else None) t'
      | Some a => if ascii_eqb c rbrace then a :: fields None t'
                  else if ascii_eqb c newline then fields None t'
                  else fields (Some (a ++ [c])) t'
      end
  end.
(* str.replace, k characters of a match to go *)
Fixpoint replace_go (old new : chars) (k : nat) (t : chars) : chars :=
  match t with
  | [] => []
  | c :: t' =>
      match k with
      | S k => replace_go old new k t'
      | O => match starts old t with
             | Some _ => new ++ replace_go old new (length old - 1) t'
             | None => c :: replace_go old new 0 t'
             end
      end
  end.
Definition replace (old new t : chars) : chars := replace_go old new 0 t.
Definition braced (x : chars) : chars := lbrace :: x ++ [rbrace].
Definition letters : chars := map (fun i => ch (97 + i)) (seq 0 26).
Definition newname (i : nat) : result chars :=
  match IntegerBaseModel.int2base (ch 45) letters i (Z.of_nat i) with Some r => r | None => Err RuntimeError end.
Fixpoint rename (i : nat) (names : list chars) (t : chars) : result (chars * list (chars * chars)) :=
  match names with
  | [] => Ok (t, [])
  | x :: names =>
      let! y := newname i in
      let! (t', l) := rename (S i) names (replace (braced x) (txt "var_" ++ y) t) in
      Ok (t', (x, y) :: l)
  end.
Fixpoint remove1 (x : chars) (l : list chars) : list chars :=
  match l with [] => [] | y :: l' => if chars_eqb x y then l' else y :: remove1 x l' end.
(* 43-69; [order] is the list of the set of fields, in an unspecified order *)
Definition parse_expression (order : list chars) (t : chars) : result (chars * list (chars * chars)) :=
  if among order [] then rename 1 (remove1 [] order) (replace (braced []) (txt "var_a") t)
  else Err ValueError.
(* signals: the name of the group and of the signal *)
Definition signal : Type := (chars * chars)%type.
(* 71-77, 91-95 *)
Definition resolve (signals : list signal) (parent x : chars) : signal :=
  match filter (fun p => chars_eqb (snd p) x) signals with
  | [p] => p
  | _ => (parent, x)
  end.
(* 79-97, 34-41: open the variables and evaluate; without variables the data stays as it is *)
Fixpoint read_all (read : signal -> result V) (signals : list signal) (parent : chars) (namemap : list (chars * chars)) : result env :=
  match namemap with
  | [] => Ok []
  | (x, y) :: l =>
      let! v := read (resolve signals parent x) in
      let! r := read_all read signals parent l in
      Ok ((y, v) :: r)
  end.
Inductive treatment : Type := Skip | Copy | Calculate.
Definition process (order : list chars) (t : chars) (read : signal -> result V) (signals : list signal) (how : treatment)
    (parent : chars) (data : V) : result (option V) :=
  let! (t', namemap) := parse_expression order t in
  match how with
  | Skip => Ok None
  | Copy => Ok (Some data)
  | Calculate =>
      match namemap with
      | [] => Ok (Some data)
      | _ => let! m := read_all read signals parent namemap in
             let! v := eval t' ((txt "a", data) :: m) in Ok (Some v)
      end
  end.
End Eval.
