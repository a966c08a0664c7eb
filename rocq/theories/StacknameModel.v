(* Model of src/spectrocrunch/align/alignDest.py: where the aligned stacks are saved in an HDF5 file or in a directory with one file per image.
   An HDF5 file is a list of objects with their path (names from the root); the groups on the way to an object exist as well.
   "." in a path is not modelled. Opening the file and creating directories are not modelled. *)
From Coq Require Import String.
From Verif Require Export Base Text PathModel.
Local Open Scope nat_scope.

(* s.strip(r"\/") 45, 53, 64 *)
Definition edge (c : ascii) : bool := is_slash c || ascii_eqb c backslash.
Fixpoint lstrip_edge (t : chars) : chars :=
  match t with c :: t' => if edge c then lstrip_edge t' else t | [] => [] end.
Definition strip_edge (t : chars) : chars := rev (lstrip_edge (rev (lstrip_edge t))).

(* ---- HDF5 (this part models h5py) ---- *)
Inductive object : Type := Group | Data (s : list nat) (dtype : nat).
Definition file : Type := list (list chars * object).
Definition nonempty (t : chars) : bool := match t with [] => false | _ => true end.
Definition components (t : chars) : list chars := filter nonempty (split t).
Definition path_eqb (p q : list chars) : bool := if list_eq_dec (list_eq_dec ascii_dec) p q then true else false.
Fixpoint path_prefix (p q : list chars) : bool :=
  match p, q with
  | [], _ => true
  | a :: p', b :: q' => chars_eqb a b && path_prefix p' q'
  | _ :: _, [] => false
  end.
(* a file or group object: the file and the path of the group *)
Record handle : Type := { content : file; base : list chars }.
(* an absolute path starts at the root of the file, whatever the group *)
Definition locate (h : handle) (t : chars) : list chars :=
  if isabs t then components t else base h ++ components t.
(* name in handle *)
Definition h5_in (h : handle) (t : chars) : bool :=
  let p := locate h t in path_eqb p [] || existsb (fun o => path_prefix p (fst o)) (content h).
(* handle[name] *)
Definition h5_get (h : handle) (t : chars) : result object :=
  match lookup path_eqb (locate h t) (content h) with
  | Some o => Ok o
  | None => if h5_in h t then Ok Group else Err KeyError
  end.
(* handle.create_dataset: not where something exists, not below a dataset *)
Definition h5_create (h : handle) (t : chars) (s : list nat) (dt : nat) : result handle :=
  let p := locate h t in
  if h5_in h t || existsb (fun o => match snd o with Data _ _ => path_prefix (fst o) p | Group => false end) (content h) then Err ValueError
  else Ok {| content := (p, Data s dt) :: content h; base := base h |}.

(* ---- 36-46, 57-65: the destination in an HDF5 file ---- *)
Record dest : Type := { dir : chars; names : list chars; ext : chars; overwrite : bool }.
Definition h5_init (nm : list chars) (extension : chars) (ov : bool) : dest :=
  {| dir := [slash]; names := map strip_edge nm; ext := extension; overwrite := ov |}.

(* 83-87 *)
Definition composesetname (d : dest) (path name : chars) : chars :=
  if chars_eqb path [slash] then path ++ name ++ ext d else path ++ [slash] ++ name ++ ext d.
(* 89-90 *)
Definition setnames (d : dest) (path : chars) : list chars := map (composesetname d path) (names d).
(* 92-95 *)
Definition datasetsexist (d : dest) (h : handle) (path : chars) : bool :=
  negb (forallb (fun name => negb (h5_in h (composesetname d path name))) (names d)).
(* 97-106; None: still in the loop when the fuel is used up *)
Definition numbered (d : dest) (num : Z) : chars :=
  if chars_eqb (dir d) [slash] then dir d ++ txt "entry" ++ dec num else dir d ++ dec num.
Fixpoint free_path (fuel : nat) (d : dest) (h : handle) (num : Z) (path : chars) : option chars :=
  match fuel with
  | O => None
  | S f => if datasetsexist d h path then free_path f d h (num + 1) (numbered d (num + 1)) else Some path
  end.
Definition nonexistingsetnames (fuel : nat) (d : dest) (h : handle) : option (list chars) :=
  match free_path fuel d h 0 (dir d) with Some path => Some (setnames d path) | None => None end.
(* 108-113 *)
Definition shape_of (o : object) : result (list nat) := match o with Data s _ => Ok s | Group => Err AttributeError end.
Definition dtype_of (o : object) : result nat := match o with Data _ t => Ok t | Group => Err AttributeError end.
Fixpoint same_shape (a b : list nat) : bool :=
  match a, b with [], [] => true | x :: a', y :: b' => Nat.eqb x y && same_shape a' b' | _, _ => false end.
Fixpoint datasetscheck (d : dest) (h : handle) (s : list nat) (dt : nat) (nm : list chars) : result bool :=
  match nm with
  | [] => Ok true
  | name :: nm' =>
      let! o := h5_get h (composesetname d (dir d) name) in
      let! s' := shape_of o in
      if negb (same_shape s' s) then Ok false
      else
        let! o' := h5_get h name in
        let! t := dtype_of o' in
        if negb (Nat.eqb t dt) then Ok false else datasetscheck d h s dt nm'
  end.
(* 115-119 *)
Fixpoint createdatasets (h : handle) (l : list chars) (s : list nat) (dt : nat) : result handle :=
  match l with [] => Ok h | t :: l' => let! h' := h5_create h t s dt in createdatasets h' l' s dt end.
(* 121-135: the file afterwards and the names of the datasets. When an error is raised some datasets may have been created. *)
Definition create_at (h : handle) (l : list chars) (s : list nat) (dt : nat) : result (handle * list chars) :=
  let! h' := createdatasets h l s dt in Ok (h', l).
Definition create_new (fuel : nat) (d : dest) (h : handle) (s : list nat) (dt : nat) : option (result (handle * list chars)) :=
  match nonexistingsetnames fuel d h with Some l => Some (create_at h l s dt) | None => None end.
Definition h5_prepare (fuel : nat) (d : dest) (h : handle) (s : list nat) (dt : nat) : option (result (handle * list chars)) :=
  if overwrite d then
    if datasetsexist d h (dir d) then
      match datasetscheck d h s dt (names d) with
      | Err e => Some (Err e)
      | Ok true => Some (let! _ := mapM (h5_get h) (setnames d (dir d)) in Ok (h, setnames d (dir d)))
      | Ok false => create_new fuel d h s dt
      end
    else Some (create_at h (setnames d (dir d)) s dt)
  else create_new fuel d h s dt.

(* ---- 47-53: one file per image; the disk is the list of the files that exist ---- *)
Definition files_init (directory : chars) (nm : list chars) (extension : chars) (ov : bool) : dest :=
  {| dir := directory; names := map strip_edge nm; ext := extension; overwrite := ov |}.
(* glob.glob(os.path.join(path, name) + "*" + ext) is not empty. The names are not empty and have none of the characters [ ? * *)
Fixpoint ends_with (e t : chars) : bool :=
  chars_eqb e t || match t with [] => false | c :: t' => if is_slash c then false else ends_with e t' end.
Definition globs (p e f : chars) : bool := match starts p f with Some r => ends_with e r | None => false end.
(* 144-148 *)
Definition files_exist (d : dest) (disk : list chars) (path : chars) : bool :=
  forallb (fun s => existsb (globs (join2 path s) (ext d)) disk) (names d).
(* 150-156 *)
Fixpoint free_dir (fuel : nat) (d : dest) (disk : list chars) (num : Z) (path : chars) : option chars :=
  match fuel with
  | O => None
  | S f => if files_exist d disk path then free_dir f d disk (num + 1) (dir d ++ txt "_" ++ dec (num + 1)) else Some path
  end.
(* 158-167: self.destdir and the width in self.format. The floating point logarithm is taken to be exact. *)
Definition files_prepare (fuel : nat) (d : dest) (disk : list chars) (nimages : Z) : option (result (chars * nat)) :=
  match (if overwrite d then Some (dir d) else free_dir fuel d disk 0 (dir d)) with
  | None => None
  | Some p => Some (if (nimages =? 0)%Z then Err OverflowError else Ok (p, length (dec nimages)))
  end.
(* 210-216: the extension when the file is written *)
Definition written_ext (e : chars) : chars :=
  if chars_eqb e (txt ".tif") || chars_eqb e (txt ".tiff") || chars_eqb e (txt ".edf") then e else txt ".edf".
(* 137-142, 231-234 *)
Definition filename (d : dest) (destdir : chars) (width : nat) (name : chars) (i : Z) : chars :=
  join2 destdir name ++ txt "_" ++ format_int width i ++ written_ext (ext d).
