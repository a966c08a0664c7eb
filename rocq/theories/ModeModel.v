(* Model of the opening modes: src/spectrocrunch/io/localfs.py:23-105 and the part of
   src/spectrocrunch/io/h5fs.py that decides in which mode an HDF5 file is opened (299-346, 391-420).
   The operating system's open() is part of the model (os_open): Linux, Python 3 text files, without
   encoding, new-line translation and buffering (a write is in the file at once), and nobody else
   changing the files in between. *)
From Verif Require Export Base.
From Coq Require Export Ascii.

(* the mode strings; MWM is "w-", MOther any other string (binary modes for instance) *)
Inductive fmode : Type := MR | MRP | MW | MWP | MX | MXP | MA | MAP | MWM | MOther.
Definition fmode_eqb (a b : fmode) : bool :=
  match a, b with
  | MR, MR | MRP, MRP | MW, MW | MWP, MWP | MX, MX | MXP, MXP | MA, MA | MAP, MAP | MWM, MWM | MOther, MOther => true
  | _, _ => false
  end.
Definition among (m : fmode) (l : list fmode) : bool := existsb (fmode_eqb m) l.

(* localfs.py:39-41 *)
Definition local_valid (m : fmode) : bool := among m [MR; MRP; MW; MWP; MX; MXP; MA; MAP].
(* localfs.py:63-82, after fs.py:100-103 filled in the missing parameters *)
Definition restrict (d m : fmode) : fmode :=
  if fmode_eqb d MR then d
  else if fmode_eqb d MRP && negb (among m [MR; MRP]) then d
  else if among d [MX; MXP] && negb (among m [MW; MWP]) then d
  else if among d [MW; MWP] && negb (among m [MR; MW; MWP]) then d
  else if among d [MA; MAP] && negb (among m [MR; MRP; MA; MAP]) then d
  else m.
Definition effective (d : fmode) (asked : option fmode) : fmode :=
  restrict d (match asked with Some m => m | None => d end).

(* what a mode string means to open() *)
Definition reads (m : fmode) : bool := among m [MR; MRP; MWP; MXP; MAP].
Definition writes (m : fmode) : bool := among m [MRP; MW; MWP; MX; MXP; MA; MAP].
Definition creates (m : fmode) : bool := among m [MW; MWP; MX; MXP; MA; MAP].
Definition truncates (m : fmode) : bool := among m [MW; MWP].
Definition exclusive (m : fmode) : bool := among m [MX; MXP].
Definition appends (m : fmode) : bool := among m [MA; MAP].

(* ---- files: what is at a name, and whether its directory is there ---- *)
Definition name : Type := nat.
Inductive node : Type := Absent | File (content : list ascii) (readable writable : bool) | Dir | Link (target : name).
Inductive parent : Type := POk (writable : bool) | PMissing | PNotDir.
Record fsys : Type := mkFs { f_node : name -> node; f_parent : name -> parent }.
Definition put (f : fsys) (n : name) (x : node) : fsys :=
  mkFs (fun m => if Nat.eqb m n then x else f_node f m) (f_parent f).

Inductive errno : Type := ENOENT | EISDIR | EEXIST | ENOTDIR | EACCES | ELOOP | ENone.

(* the name at the end of a chain of links; the kernel gives up after 40 *)
Fixpoint follow (fuel : nat) (f : fsys) (n : name) : name + errno :=
  match f_parent f n with
  | PMissing => inr ENOENT
  | PNotDir => inr ENOTDIR
  | POk _ =>
      match f_node f n with
      | Link t => match fuel with O => inr ELOOP | S k => follow k f t end
      | _ => inl n
      end
  end.
Definition max_links : nat := 40.

Record handle : Type := mkHandle { h_file : name; h_pos : nat; h_mode : fmode }.

Definition make (f : fsys) (n : name) (m : fmode) : (fsys * handle) + errno :=
  match f_parent f n with
  | POk true => inl (put f n (File [] true true), mkHandle n 0 m)
  | POk false => inr EACCES
  | PMissing => inr ENOENT
  | PNotDir => inr ENOTDIR
  end.
(* open(path, mode=m) *)
Definition os_open (f : fsys) (n : name) (m : fmode) : (fsys * handle) + errno :=
  if exclusive m then
    match f_parent f n with
    | PMissing => inr ENOENT
    | PNotDir => inr ENOTDIR
    | POk _ => match f_node f n with Absent => make f n m | _ => inr EEXIST end
    end
  else
    match follow max_links f n with
    | inr e => inr e
    | inl t =>
        match f_node f t with
        | Absent => if creates m then make f t m else inr ENOENT
        | Dir | Link _ => inr EISDIR
        | File c r w =>
            if (reads m && negb r) || (writes m && negb w) then inr EACCES
            else if truncates m then inl (put f t (File [] r w), mkHandle t 0 m)
            else inl (f, mkHandle t (if appends m then length c else 0%nat) m)
        end
    end.

(* the statements of the with-block *)
Inductive fop : Type := Read | Write (d : list ascii) | Rewind | RaiseOs (e : errno) | RaiseOther (x : exn).
Inductive exc : Type := Missing | NotAFile | Os (e : errno) | Other (x : exn).
Inductive stop : Type := NoStop | StopOs (e : errno) | StopOther (x : exn).

Fixpoint block (f : fsys) (h : handle) (l : list fop) : fsys * list (list ascii) * stop :=
  match l with
  | [] => (f, [], NoStop)
  | o :: l' =>
      match f_node f (h_file h) with
      | File c r w =>
          match o with
          | Read =>
              if reads (h_mode h) then
                let '(f', out, s) := block f (mkHandle (h_file h) (length c) (h_mode h)) l' in
                (f', skipn (h_pos h) c :: out, s)
              else (f, [], StopOs ENone)             (* io.UnsupportedOperation *)
          | Write d =>
              if writes (h_mode h) then
                let at_ := if appends (h_mode h) then length c else h_pos h in
                block (put f (h_file h) (File (firstn at_ c ++ d ++ skipn (at_ + length d) c) r w))
                      (mkHandle (h_file h) (at_ + length d) (h_mode h)) l'
              else (f, [], StopOs ENone)
          | Rewind => block f (mkHandle (h_file h) 0 (h_mode h)) l'
          | RaiseOs e => (f, [], StopOs e)
          | RaiseOther x => (f, [], StopOther x)
          end
      | _ => (f, [], StopOs ENone)                   (* does not occur: the file is open *)
      end
  end.

(* os.path.isfile *)
Definition isfile (f : fsys) (n : name) : bool :=
  match follow max_links f n with
  | inl t => match f_node f t with File _ _ _ => true | _ => false end
  | inr _ => false
  end.
(* localfs.py:91-101: the handler is around the whole block *)
Definition convert (f : fsys) (n : name) (e : errno) : exc :=
  match e with
  | ENOENT => Missing
  | EISDIR => NotAFile
  | _ => if isfile f n then Os e else NotAFile
  end.
(* localfs.py:84-101 _fopen *)
Definition fopen (f : fsys) (n : name) (m : fmode) (l : list fop) : fsys * list (list ascii) * option exc :=
  match os_open f n m with
  | inr e => (f, [], Some (convert f n e))
  | inl (f1, h) =>
      let '(f2, out, s) := block f1 h l in
      (f2, out, match s with
                | NoStop => None
                | StopOs e => Some (convert f2 n e)
                | StopOther x => Some (Other x)
                end)
  end.
(* Path(path, mode=d).open(mode=m) as an outermost context *)
Definition path_open (f : fsys) (n : name) (d : fmode) (asked : option fmode) (l : list fop)
  : fsys * list (list ascii) * option exc :=
  if local_valid d then fopen f n (effective d asked) l else (f, [], Some (Other ValueError)).

(* localfs.py:153-157 mkfile, 256-263 read and write *)
Definition path_read (f : fsys) (n : name) (d : fmode) : fsys * list (list ascii) * option exc :=
  path_open f n d (Some MR) [Read].
Definition path_write (f : fsys) (n : name) (d : fmode) (asked : option fmode) (c : list ascii) :=
  path_open f n d asked [Write c].
Definition path_mkfile (f : fsys) (n : name) (d : fmode) (asked : option fmode) (c : list ascii) :=
  path_open f n d asked (match c with [] => [] | _ => [Write c] end).

(* ---- HDF5 files ---- *)
(* h5fs.py:299-314: the modes accepted by h5Device and then by localfs.Path *)
Definition h5_valid (d : fmode) : bool := among d [MR; MRP; MW; MX; MWM; MA].
Definition h5_init (d : fmode) : result unit :=
  if h5_valid d then if local_valid d then Ok tt else Err ValueError else Err ValueError.
(* h5fs.py:326-346, after localfs.py:63-82 *)
Definition h5_restrict (d m : fmode) : fmode :=
  let m := restrict d m in
  if fmode_eqb d MR then d
  else if fmode_eqb d MRP && negb (among m [MR; MRP]) then d
  else if among d [MX; MWM] && negb (among m [MR; MX; MWM]) then d
  else if fmode_eqb d MW && negb (among m [MR; MW; MA]) then d
  else if fmode_eqb d MA && negb (among m [MR; MA]) then d
  else m.
(* h5fs.py:391-405: opening a node; the mode of the node and the mode in which the file is opened *)
Definition node_modes (d : fmode) (asked : option fmode) : fmode * fmode :=
  let m := match asked with Some m => m | None => d end in
  (m, h5_restrict d (if fmode_eqb d MW then MA else m)).
(* h5py.File(name, mode): what happens to an existing file (None: refused) and whether a missing one is made *)
Inductive h5effect : Type := Keep (rw : bool) | Empty | Refuse.
Definition h5_existing (m : fmode) : h5effect :=
  match m with
  | MR => Keep false
  | MRP | MA => Keep true
  | MW => Empty
  | _ => Refuse                                     (* x and w- *)
  end.
Definition h5_missing (m : fmode) : h5effect :=
  match m with
  | MW | MA | MX | MWM => Empty
  | _ => Refuse
  end.
