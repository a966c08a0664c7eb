(* Model of src/spectrocrunch/io/target.py (names with a counter) and of the places that
   search a free name: io/fs.py:Path.nonexisting_name, io/nxfs.py:Path.next_nxentry_name.
   The file system is an oracle `ex` telling which names exist in the parent; names are
   taken literally (a name with a path separator or ".." is not resolved). *)
From Coq Require Import String.
From Verif Require Export Text.

(* io/target.py:9-13 *)
Definition locate_number (name : chars) : nat * nat * Z * bool :=
  let '(start, stop) := last (finditer_digits name) (0, 0)%nat in
  let num := if Nat.eqb start stop then 0 else int_of (firstn (stop - start) (skipn start name)) in
  (start, stop, num, Nat.eqb start stop).

(* io/target.py:16-22; "{{:0{}d}}".format(width) *)
Definition number_field (width : nat) : chars :=
  txt "{:0" ++ dec (Z.of_nat width) ++ txt "d}".
Definition naming_format (name : chars) : chars * Z * bool :=
  let '(start, stop, num, nonumber) := locate_number name in
  let fmt := if nonumber then name ++ txt ".{:d}"
             else firstn start name ++ number_field (stop - start) ++ skipn stop name in
  (fmt, num, nonumber).

(* io/target.py:25-32 *)
Definition regex (name : chars) : chars :=
  let name := re_escape name in
  let '(start, stop, _, nonumber) := locate_number name in
  if nonumber then txt "^" ++ name ++ txt "(\.[0-9]+)?$"
  else txt "^" ++ firstn start name ++ txt "[0-9]+" ++ skipn stop name ++ txt "$".

(* io/target.py:35-36; None: the pattern is outside the model *)
Definition matches (name s : chars) : option bool :=
  match re_compile (regex name) with
  | Some p => Some (re_match true p s)
  | None => None
  end.

(* io/target.py:39-47 *)
Definition increment (name : chars) (add : Z) : fres :=
  let '(fmt, num, _) := naming_format name in
  pyformat fmt (num + add).

(* io/target.py:50-58 *)
Definition prepare (name : chars) : fres :=
  let '(fmt, num, nonumber) := naming_format name in
  pyformat fmt (if nonumber then 1 else num).

(* io/target.py:61-69 class Name *)
Record Name : Type := mkName { n_fmt : chars; n_num : Z; n_org : Z; n_locked : bool }.
Definition new_Name (name : chars) : Name :=
  let '(fmt, num, nonumber) := naming_format name in
  let num := if nonumber then 1 else num in
  mkName fmt num num false.
(* 71-72, 74-75, 77-78 *)
Definition name_reset (n : Name) : Name := mkName (n_fmt n) (n_org n) (n_org n) (n_locked n).
Definition name_lock (n : Name) : Name := mkName (n_fmt n) (n_num n) (n_org n) true.
Definition name_unlock (n : Name) : Name := mkName (n_fmt n) (n_num n) (n_org n) true.
(* 83-84 *)
Definition name_str (n : Name) : fres := pyformat (n_fmt n) (n_num n).
(* 86-93 *)
Definition name_iadd (n : Name) (x : Z) : Name :=
  if n_locked n then n else mkName (n_fmt n) (n_num n + x) (n_org n) (n_locked n).
(* 95-96 *)
Definition name_add (n : Name) (x : Z) : option (result Name) :=
  match pyformat (n_fmt n) (n_num n + x) with
  | Fmt s => Some (Ok (new_Name s))
  | FErr e => Some (Err e)
  | FOther => None
  end.
(* 98-100: str(str) is the text of the type *)
Definition name_matchfunc (n : Name) (s : chars) : option bool := matches (txt "<class 'str'>") s.

Section Search.
Context (ex : chars -> bool).

(* while parent[str(name)].exists: name += 1, as in io/nxfs.py:336-337, 403-407 and
   process/nxprocess.py:63-64; None: still searching when the fuel is spent *)
Fixpoint first_free (fuel : nat) (n : Name) : option (result Name) :=
  match fuel with
  | O => None
  | S f =>
      match name_str n with
      | Fmt s => if ex s then first_free f (name_iadd n 1) else Some (Ok n)
      | FErr e => Some (Err e)
      | FOther => None
      end
  end.

(* re.match(r"^(.+)\((\d+)\)$", name): the text before the counter and the counter *)
Fixpoint span_digits (s : chars) : chars * chars :=
  match s with
  | [] => ([], [])
  | c :: s' => if digit c then let '(a, r) := span_digits s' in (c :: a, r) else ([], s)
  end.
Definition rstrip1 (r : chars) : chars :=               (* $ also matches before a final newline *)
  match r with c :: r' => if ascii_eqb c newline then r' else r | [] => [] end.
Definition split_counter (name : chars) : option (chars * chars) :=
  match rstrip1 (rev name) with
  | c :: r =>
      if ascii_eqb c (ch 41) then
        let '(ds, r) := span_digits r in
        match ds, r with
        | _ :: _, d :: ((_ :: _) as base) =>
            if ascii_eqb d (ch 40) && negb (existsb (ascii_eqb newline) base)
            then Some (rev base, rev ds) else None
        | _, _ => None
        end
      else None
  | [] => None
  end.

(* io/fs.py:765-769: while fmt.format(i) in self: i += 1; return fmt.format(i) *)
Fixpoint first_index (fuel : nat) (fmt : chars) (i : Z) : option (result chars) :=
  match fuel with
  | O => None
  | S f =>
      match pyformat fmt i with
      | Fmt s => if ex s then first_index f fmt (i + 1) else Some (Ok s)
      | FErr e => Some (Err e)
      | FOther => None
      end
  end.

(* io/fs.py:755-769 *)
Definition nonexisting_name (fuel : nat) (name : chars) : option (result chars) :=
  if negb (ex name) then Some (Ok name)
  else
    let '(base, i) := match split_counter name with
                      | Some (base, ds) => (base, int_of ds + 1)
                      | None => (name, 1)
                      end in
    first_index fuel (base ++ txt "({})") i.

(* io/nxfs.py:312-339; last: the name of the NXentry of the argument, otherwise of the
   last NXentry of the file, None when the file has none *)
Definition next_nxentry_name (fuel : nat) (last : option chars) : option (result chars) :=
  match last with
  | None => Some (Ok (txt "entry0001"))
  | Some e =>
      match first_free fuel (new_Name e) with
      | Some (Ok n) => match name_str n with
                       | Fmt s => Some (Ok s)
                       | FErr e => Some (Err e)
                       | FOther => None
                       end
      | Some (Err e) => Some (Err e)
      | None => None
      end
  end.
End Search.
