(* Model of the path operations of src/spectrocrunch/io/fs.py:Path, for local paths
   (io/localfs.py) and HDF5 paths (io/h5fs.py), with Python's posixpath functions they call.
   The separator is "/" everywhere (Linux), so that _sep_in and _sep_out (437-450) change nothing.
   The current directory is a parameter. *)
From Verif Require Export Base Text.

Definition slash : ascii := ch 47.
Definition dot : ascii := ch 46.
Definition is_slash (c : ascii) : bool := ascii_eqb c slash.

(* ---- posixpath ---- *)
(* s.split("/") *)
Fixpoint split (s : chars) : list chars :=
  match s with
  | [] => [[]]
  | c :: s' => if is_slash c then [] :: split s'
               else match split s' with
                    | [] => [[c]]                       (* does not occur *)
                    | w :: l => (c :: w) :: l
                    end
  end.
(* "/".join(l) *)
Fixpoint unsplit (l : list chars) : chars :=
  match l with
  | [] => []
  | [w] => w
  | w :: l' => w ++ slash :: unsplit l'
  end.
Definition isabs (s : chars) : bool := match s with c :: _ => is_slash c | [] => false end.
Definition ends_slash (s : chars) : bool := match s with [] => false | _ => is_slash (last s dot) end.
(* join(a, b) *)
Definition join2 (a b : chars) : chars :=
  if isabs b then b
  else if (match a with [] => true | _ => false end) || ends_slash a then a ++ b
  else a ++ slash :: b.
Definition join (a : chars) (l : list chars) : chars := fold_left join2 l a.
Definition curdir : chars := [dot].
Definition pardir : chars := [dot; dot].
(* the leading slashes that normpath keeps: none, one, or exactly two *)
Definition leading (s : chars) : nat :=
  match s with
  | a :: b :: c :: _ => if is_slash a then if is_slash b && negb (is_slash c) then 2%nat else 1%nat else 0%nat
  | [a; b] => if is_slash a then if is_slash b then 2%nat else 1%nat else 0%nat
  | [a] => if is_slash a then 1%nat else 0%nat
  | [] => 0%nat
  end.
(* the loop of normpath; new_comps in reverse *)
Definition norm_step (rooted : bool) (acc : list chars) (w : chars) : list chars :=
  if chars_eqb w [] || chars_eqb w curdir then acc
  else if negb (chars_eqb w pardir) || (negb rooted && match acc with [] => true | _ => false end)
          || match acc with x :: _ => chars_eqb x pardir | [] => false end
  then w :: acc
  else match acc with _ :: acc' => acc' | [] => [] end.
Definition normpath (s : chars) : chars :=
  match s with
  | [] => curdir
  | _ =>
      let n := leading s in
      let comps := rev (fold_left (norm_step (negb (Nat.eqb n 0))) (split s) []) in
      match repeat slash n ++ unsplit comps with
      | [] => curdir
      | r => r
      end
  end.
Definition nonempty (s : chars) : bool := match s with [] => false | _ => true end.
Fixpoint common_prefix (a b : list chars) : list chars :=
  match a, b with
  | x :: a', y :: b' => if chars_eqb x y then x :: common_prefix a' b' else []
  | _, _ => []
  end.
Fixpoint last_component (s acc : chars) : chars :=
  match s with
  | [] => rev acc
  | c :: s' => if is_slash c then last_component s' [] else last_component s' (c :: acc)
  end.
Definition basename (s : chars) : chars := last_component s [].

Section Paths.
Context (cwd : chars).

Definition abspath (s : chars) : chars := normpath (if isabs s then s else join2 cwd s).
Definition os_relpath (path start : chars) : chars :=
  let start_list := filter nonempty (split (abspath start)) in
  let path_list := filter nonempty (split (abspath path)) in
  let i := length (common_prefix start_list path_list) in
  match repeat pardir (length start_list - i) ++ skipn i path_list with
  | [] => curdir
  | w :: l => join w l
  end.

(* ---- io/fs.py, local paths: the object is its path ---- *)
(* 456-463 norm; 155-157 setter of path; the constructor io/localfs.py:44 *)
Definition norm (s : chars) : chars := abspath (normpath s).
(* 329-334 __getitem__ *)
Definition child (p v : chars) : chars := norm (join2 p v).
(* 350-352 parent *)
Definition parent (p : chars) : chars := child p pardir.
(* 480-482 name *)
Definition name (p : chars) : chars := basename p.
(* 468-473 relpath *)
Definition relpath (p v : chars) : chars := if isabs v then os_relpath v p else v.
(* 261-273 sibling (without a device: 235-236 of _split_path) *)
Definition sibling (p v : chars) : chars := if isabs v then norm v else child (parent p) v.
(* 490-497 iterup *)
Fixpoint iterup (fuel : nat) (p : chars) : option (list chars) :=
  match fuel with
  | O => None
  | S k => if chars_eqb p (parent p) || negb (nonempty (parent p)) then Some [p]
           else match iterup k (parent p) with Some l => Some (p :: l) | None => None end
  end.
(* 354-366 common: the loop over the reversed lists; both arguments are paths *)
Fixpoint common_loop (ret : option chars) (a b : list chars) : option chars :=
  match a, b with
  | x :: a', y :: b' => if chars_eqb x y then common_loop (Some x) a' b' else ret
  | _, _ => ret
  end.
Definition common (fuel : nat) (p q : chars) : option (option chars) :=
  match iterup fuel p, iterup fuel q with
  | Some a, Some b => Some (common_loop None (rev a) (rev b))
  | _, _ => None
  end.
End Paths.

(* ---- HDF5 paths: device and path ---- *)
Definition devsep : chars := [colon; colon].
Definition location (dev p : chars) : chars := dev ++ devsep ++ p.         (* 159-164 *)
Fixpoint no_slash_run (s : chars) : chars :=
  match s with
  | [] => []
  | c :: s' => if is_slash c then [] else c :: no_slash_run s'
  end.
(* the end of the last "::" after at least one character *)
Fixpoint last_sep (pos : nat) (r : chars) : option nat :=
  match r with
  | a :: ((b :: _) as r') =>
      match last_sep (S pos) r' with
      | Some n => Some n
      | None => if Nat.leb 1 pos && ascii_eqb a colon && ascii_eqb b colon then Some (pos + 2)%nat else None
      end
  | _ => None
  end.
(* io/h5fs.py:506-519 devsplit: the matches of \.[^/]+:: from left to right *)
Fixpoint devsplit (fuel : nat) (acc s : chars) : list chars :=
  match fuel with
  | O => [rev acc ++ s]
  | S k =>
      match s with
      | [] => [rev acc]
      | c :: s' =>
          if ascii_eqb c dot then
            match last_sep 0 (no_slash_run s') with
            | Some n => (rev acc ++ c :: firstn (n - 2) s') :: devsplit k [] (skipn n s')
            | None => devsplit k (c :: acc) s'
            end
          else devsplit k (c :: acc) s'
      end
  end.
Fixpoint prefixed (p s : chars) : bool :=
  match p, s with
  | [], _ => true
  | a :: p', b :: s' => ascii_eqb a b && prefixed p' s'
  | _, _ => false
  end.
Fixpoint join_sep (l : list chars) : chars :=
  match l with
  | [] => []
  | [w] => w
  | w :: l' => w ++ devsep ++ join_sep l'
  end.
(* 181-237 _split_path *)
Definition split_path (path : chars) (device : option chars) : chars * chars :=
  let '(devicepath, localpath) :=
    match devsplit (S (length path)) [] path with
    | [] => ([], [])                                    (* does not occur *)
    | [d] => (d, [])
    | d :: l => (d, join_sep l)
    end in
  match device with
  | None => (devicepath, localpath)
  | Some dev =>
      if chars_eqb devicepath dev then (dev, localpath)
      else if prefixed dev path then
        let rest := skipn (length dev) path in
        (dev, if prefixed devsep rest then skipn 2 rest else rest)
      else if nonempty localpath then (devicepath, localpath)
      else (dev, path)
  end.

Section H5Paths.
Context (cwd : chars).
Record h5 : Type := mkH5 { hdev : chars; hpath : chars }.
(* io/h5fs.py:361-373 the constructor; a device given as a string becomes a local path *)
Definition new_h5 (path : chars) (device : option chars) : result h5 :=
  let '(dev, p) := split_path path device in
  let p := if isabs p then p else slash :: p in
  if nonempty dev then Ok (mkH5 (norm cwd dev) (norm cwd p)) else Err ValueError.
(* io/h5fs.py:375-381 factory *)
Definition hfactory (o : h5) (path : chars) : result h5 :=
  let '(dev, p) := split_path path (Some (hdev o)) in new_h5 p (Some dev).
Definition hlocation (o : h5) : chars := location (hdev o) (hpath o).
(* io/fs.py:329-334 __getitem__, 350-352 parent, 254-255 detach *)
Definition hchild (o : h5) (v : chars) : result h5 :=
  hfactory o (location (hdev o) (join2 (hpath o) v)).
Definition hparent (o : h5) : result h5 := hchild o pardir.
Definition hdetach (o : h5) : result h5 := new_h5 (hlocation o) None.
(* io/fs.py:261-273 sibling *)
Definition hsibling (o : h5) (path : chars) : result h5 :=
  let '(dev, p) := split_path path (Some (hdev o)) in
  if chars_eqb (hdev o) dev && negb (isabs p) then
    match hparent o with Ok q => hchild q p | Err e => Err e end
  else hfactory o path.
End H5Paths.
