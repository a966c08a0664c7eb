(* Model of the file operations of src/spectrocrunch/io/localfs.py (mkdir, move, copy, remove, link,
   linkdest) and of the generic ones in src/spectrocrunch/io/fs.py (_copy_move_prepare,
   _move_copyrenamedel, _mkdir_prepare, randomnode, renameremove, temp).
   A disk is a tree of files, directories and symbolic links; a Path object is its normalised absolute
   path, a list of names (C48 covers the text of paths). The functions os_* model the operating system:
   links are followed in every directory of a path, at most [maxlinks] of them. An operation gives a result
   and the disk that is left, also when it raises. [device] tells on which file system a directory is.
   Not modelled: hard links, permissions, concurrency, the option dereference, a copy of a directory
   into itself (Python copies until the path is too long; here it is refused). The root directory cannot
   be changed. *)
From Verif Require Export Base Text.
Local Open Scope nat_scope.

Inductive comp : Type := Up | Nm (n : chars).                 (* ".." or a name *)
Definition path : Type := list chars.
Inductive node : Type :=
| File (d : chars)
| Dir (l : list (chars * node))
| Link (abs : bool) (t : list comp).

(* ---- the tree ---- *)
Fixpoint get (l : list (chars * node)) (x : chars) : option node :=
  match l with [] => None | (y, n) :: l' => if chars_eqb x y then Some n else get l' x end.
Definition put (l : list (chars * node)) (x : chars) (v : option node) : list (chars * node) :=
  let l' := filter (fun e => negb (chars_eqb x (fst e))) l in
  match v with Some n => (x, n) :: l' | None => l' end.
Fixpoint look (n : node) (p : path) : option node :=
  match p with
  | [] => Some n
  | x :: p' => match n with Dir l => match get l x with Some m => look m p' | None => None end | _ => None end
  end.
(* the disk with another node (or none) at a path whose directory exists *)
Fixpoint edit (n : node) (p : path) (v : option node) : option node :=
  match p with
  | [] => None
  | x :: p' =>
      match n with
      | Dir l =>
          match p' with
          | [] => Some (Dir (put l x v))
          | _ => match get l x with
                 | Some m => match edit m p' v with Some m' => Some (Dir (put l x (Some m'))) | None => None end
                 | None => None
                 end
          end
      | _ => None
      end
  end.

Section Disk.
Variable maxlinks : nat.            (* links the operating system follows in one path *)
Variable limit : nat.               (* depth of recursion of Python *)
Variable device : path -> nat.      (* the file system a directory is mounted from *)
Variable candidates : list chars.   (* random names, utils.randomstring *)

(* ---- the operating system ---- *)
Fixpoint resolve (f : nat) (root : node) : path -> list comp -> option path :=
  fix go (done : path) (todo : list comp) {struct todo} : option path :=
    match todo with
    | [] => Some done
    | Up :: t => go (removelast done) t
    | Nm n :: t =>
        match look root (done ++ [n]) with
        | Some (Link abs tgt) =>
            match f with
            | 0 => None
            | S f' => resolve f' root (if abs then [] else done) (tgt ++ t)
            end
        | Some _ => go (done ++ [n]) t
        | None => match t with [] => Some (done ++ [n]) | _ => None end
        end
    end.
(* with the last link followed, and not followed *)
Definition real (root : node) (p : path) : option path := resolve maxlinks root [] (map Nm p).
Definition lreal (root : node) (p : path) : option path :=
  match p with
  | [] => Some []
  | _ => match real root (removelast p) with Some d => Some (d ++ [last p []]) | None => None end
  end.
Definition stat (root : node) (p : path) : option node := match real root p with Some q => look root q | None => None end.
Definition lstat (root : node) (p : path) : option node := match lreal root p with Some q => look root q | None => None end.
Definition is_dir (n : option node) : bool := match n with Some (Dir _) => true | _ => false end.
Definition exists_ (root : node) (p : path) : bool := match stat root p with Some _ => true | None => false end.       (* 103-105 *)
Definition lexists (root : node) (p : path) : bool := match lstat root p with Some _ => true | None => false end.      (* 107-109 *)
Definition isdir (root : node) (p : path) : bool := is_dir (stat root p).                                              (* 111-113 *)
Definition isfile (root : node) (p : path) : bool := match stat root p with Some (File _) => true | _ => false end.    (* 115-117 *)
Definition islink (root : node) (p : path) : bool := match lstat root p with Some (Link _ _) => true | _ => false end. (* 119-121 *)

Definition action (A : Type) : Type := node -> result A * node.
Definition ret {A} (a : A) : action A := fun root => (Ok a, root).
Definition fail {A} (e : exn) : action A := fun root => (Err e, root).
Definition bnd {A B} (m : action A) (k : A -> action B) : action B :=
  fun root => match m root with (Ok a, root') => k a root' | (Err e, root') => (Err e, root') end.
(* change one place; fails when its directory does not exist *)
Definition set_at (p : option path) (v : option node) : action unit :=
  fun root => match p with
              | Some q => match edit root q v with Some root' => (Ok tt, root') | None => (Err OSError, root) end
              | None => (Err OSError, root)
              end.
Definition os_remove (p : path) : action unit :=
  fun root => match lstat root p with
              | Some (Dir _) | None => (Err OSError, root)
              | Some _ => set_at (lreal root p) None root
              end.
Definition os_rmdir (p : path) : action unit :=
  fun root => match lstat root p with
              | Some (Dir []) => set_at (lreal root p) None root
              | Some (Dir _) => (Err NotEmpty, root)       (* ENOTEMPTY *)
              | _ => (Err OSError, root)
              end.
(* shutil.rmtree *)
Definition os_rmtree (p : path) : action unit :=
  fun root => match lstat root p with
              | Some (Dir _) => set_at (lreal root p) None root
              | _ => (Err OSError, root)
              end.
(* OSError with errno EEXIST *)
Definition eexist : exn := UserError 17.
Definition os_mkdir (p : path) : action unit :=
  fun root => if lexists root p then (Err eexist, root)
              else set_at (lreal root p) (Some (Dir [])) root.
(* os.makedirs: first the directories above *)
Fixpoint os_makedirs_from (above : path) (rest : path) : action unit :=
  match rest with
  | [] => ret tt
  | [x] => os_mkdir (above ++ [x])
  | x :: rest' =>
      fun root =>
        let p := above ++ [x] in
        match (if exists_ root p then (Ok tt, root) else os_mkdir p root) with
        | (Ok _, root') | (Err (UserError _), root') => os_makedirs_from p rest' root'
        | (Err e, root') => (Err e, root')
        end
  end.
Definition os_makedirs (p : path) : action unit := os_makedirs_from [] p.
Definition os_symlink (abs : bool) (t : list comp) (p : path) : action unit :=
  fun root => if lexists root p then (Err OSError, root) else set_at (lreal root p) (Some (Link abs t)) root.
Fixpoint below (p q : path) : option path :=
  match p, q with
  | [], _ => Some q
  | x :: p', y :: q' => if chars_eqb x y then below p' q' else None
  | _, [] => None
  end.
Definition starts_with (p q : path) : bool := match below p q with Some _ => true | None => false end.
Definition same_path (p q : path) : bool := match below p q with Some [] => true | _ => false end.
Inductive rename_result : Type := Renamed | CrossDevice | Failed.
Definition os_rename (src dest : path) : node -> rename_result * node :=
  fun root =>
    match lreal root src, lreal root dest with
    | Some s, Some d =>
        match look root s with
        | None => (Failed, root)
        | Some n =>
            if negb (Nat.eqb (device (removelast s)) (device (removelast d))) then (CrossDevice, root)
            else if same_path s d then (Renamed, root)
            else if starts_with s d then (Failed, root)
            else
              let ok := match look root d with
                        | None => true
                        | Some (Dir []) => is_dir (Some n)
                        | Some (Dir _) => false
                        | Some _ => negb (is_dir (Some n))
                        end in
              if ok then
                match edit root s None with
                | Some r1 => match edit r1 d (Some n) with Some r2 => (Renamed, r2) | None => (Failed, root) end
                | None => (Failed, root)
                end
              else (Failed, root)
        end
    | _, _ => (Failed, root)
    end.
(* shutil.copytree(src, dest, symlinks=True) *)
Definition os_copytree (src dest : path) : action unit :=
  fun root =>
    match real root src with
    | Some s =>
        match look root s with
        | Some (Dir l) =>
            match os_makedirs dest root with
            | (Ok _, root') =>
                match lreal root' dest with
                | Some d => if starts_with s d then (Err OSError, root) else set_at (Some d) (Some (Dir l)) root'
                | None => (Err OSError, root')
                end
            | (Err e, root') => (Err e, root')
            end
        | _ => (Err OSError, root)
        end
    | None => (Err OSError, root)
    end.
(* shutil.copy *)
Definition os_copy (src dest : path) : action unit :=
  fun root =>
    match stat root src with
    | Some (File d) =>
        match stat root dest with
        | Some (Dir _) => (Err OSError, root)
        | _ => set_at (real root dest) (Some (File d)) root
        end
    | _ => (Err OSError, root)
    end.

(* ---- fs.py and localfs.py ---- *)
Definition parent (p : path) : path := removelast p.                                   (* fs 346-348 *)
(* path[name]: the name of the root is empty *)
Definition sub (p : path) (src : path) : path := match src with [] => p | _ => p ++ [last src []] end.
(* fs 400-408 and localfs 136-150 *)
Definition mkdir (recursive force : bool) (p : path) : action unit :=
  fun root =>
    if exists_ root p then
      if negb force then (Err AlreadyExists, root)
      else if isfile root p then (Err NotADirectory, root)
      else (Ok tt, root)
    else if recursive then
      match os_makedirs p root with (Err (UserError _), root') => (Ok tt, root') | r => r end
    else if negb (exists_ root (parent p)) then (Err MissingParameter, root)            (* MissingParentDirectory *)
    else os_mkdir p root.
(* the path of a link target: norm(join(parent, target)), without looking at the disk (fs 459-470) *)
Fixpoint lexical (done : path) (t : list comp) : path :=
  match t with [] => done | Up :: t => lexical (removelast done) t | Nm n :: t => lexical (done ++ [n]) t end.
(* os.path.relpath of normalised paths (fs 472-477) *)
Fixpoint relpath (from to : path) : list comp :=
  match from, to with
  | x :: from', y :: to' => if chars_eqb x y then relpath from' to' else map (fun _ => Up) from ++ map Nm to
  | _, _ => map (fun _ => Up) from ++ map Nm to
  end.
(* localfs 235-244 with soft=True and the path of a node *)
Definition link (p dest : path) : action path := bnd (os_symlink false (relpath (parent p) dest) p) (fun _ => ret p).
(* localfs 246-253 *)
Definition linkdest (root : node) (p : path) : option path :=
  match lstat root p with
  | Some (Link abs t) => Some (lexical (if abs then [] else parent p) t)
  | _ => None
  end.
(* fs 410-418 and localfs 246-253 with follow=True *)
Fixpoint linkdest_follow (f : nat) (root : node) (p : path) : result (option path) :=
  match f with
  | 0 => Err RuntimeError
  | S f' =>
      match linkdest root p with
      | None => Ok None
      | Some d => let! e := linkdest_follow f' root d in Ok (Some (match e with Some x => x | None => d end))
      end
  end.
(* localfs 184-204; deeper than Python recurses: RecursionError *)
Fixpoint remove_at (f : nat) (recursive : bool) (p : path) : action unit :=
  match f with
  | 0 => fail RuntimeError
  | S f' =>
      fun root =>
        if islink root p then
          match (if recursive then match linkdest root p with Some d => remove_at f' true d root | None => (Ok tt, root) end
                 else (Ok tt, root)) with
          | (Ok _, root') => os_remove p root'
          | r => r
          end
        else if isdir root p then
          if recursive then os_rmtree p root else os_rmdir p root
        else if exists_ root p then os_remove p root
        else (Ok tt, root)
  end.
Definition remove (recursive : bool) (p : path) : action unit := remove_at limit recursive p.
(* fs 362-376 *)
Definition prepare (src dest : path) (force rename : bool) : action path :=
  fun root =>
    let dest := if isdir root dest && negb rename then sub dest src else dest in
    bnd (if exists_ root dest then (if force then remove true dest else fail AlreadyExists) else ret tt)
        (fun _ root =>
           bnd (if exists_ root (parent dest) then ret tt else mkdir true true (parent dest)) (fun _ => ret dest) root) root.
(* localfs 169-182 *)
Definition copy (src dest : path) (force follow : bool) : action path :=
  bnd (prepare src dest force false) (fun dest root =>
    if islink root src && negb follow then (Err TypeError, root)      (* dest.link(self.linkdest): the method, not its result *)
    else if isdir root src then bnd (os_copytree src dest) (fun _ => ret dest) root
    else bnd (os_copy src dest) (fun _ => ret dest) root).
(* fs 709-714: a random name that does not exist *)
Fixpoint randomnode (cands : list chars) (dir : path) (prefix : chars) : action path :=
  match cands with
  | [] => fail StopIteration
  | c :: cands' => fun root => let p := dir ++ [prefix ++ c] in if exists_ root p then randomnode cands' dir prefix root else (Ok p, root)
  end.
(* localfs 158-167 with a destination that is renamed to (fs 662-663), on one file system *)
Definition rename_tmp (tmp dest : path) : action path :=
  bnd (prepare tmp dest false true) (fun dest root =>
    match os_rename tmp dest root with
    | (Renamed, root') => (Ok dest, root')
    | (_, root') => (Err OSError, root')
    end).
(* fs 378-384 *)
Definition copyrenamedel (src dest : path) : action path :=
  bnd (randomnode candidates (parent dest) (last dest [])) (fun tmp =>
  bnd (copy src tmp true true) (fun _ =>
  bnd (rename_tmp tmp dest) (fun r =>
  bnd (remove true src) (fun _ => ret r)))).
(* localfs 158-167 *)
Definition move (src dest : path) (force rename : bool) : action path :=
  bnd (prepare src dest force rename) (fun dest root =>
    match os_rename src dest root with
    | (Renamed, root') => (Ok dest, root')
    | (CrossDevice, root') => copyrenamedel src dest root'
    | (Failed, root') => (Err OSError, root')
    end).
(* fs 701-707 *)
Definition renameremove (src dest : path) (force : bool) : action path :=
  fun root =>
    match move src dest force true root with
    | (Err AlreadyExists, root') => bnd (remove true src) (fun _ => ret src) root'
    | r => r
    end.
(* fs 684-699: the end of the context, with or without a name *)
Definition end_temp (tmp : path) (name : option path) (force rm : bool) : action unit :=
  match name with
  | Some nm => fun root => if exists_ root tmp then bnd (renameremove tmp nm force) (fun _ => ret tt) root else (Ok tt, root)
  | None => if rm then remove true tmp else ret tt
  end.
End Disk.
