(* Model of finding and creating NXprocess groups: src/spectrocrunch/io/nxfs.py
   Path.nxprocess, find_nxprocess, iter_nxprocess, nxentry, _init_nxclass and
   _NXprocess.set_config/checksum.
   A file is the list of the groups below its root, a group the list of its members, both in
   the order in which h5py enumerates them (by name).  Names are taken literally (no path
   separators).  Only the first level below the root is considered for NXentry groups.
   Time stamps, program names and sequence numbers are left out.  A dependency is given by
   its checksum. *)
From Coq Require Import String.
From Verif Require Export HashModel NameModel.

(* order of the names: by character code *)
Fixpoint chars_ltb (a b : chars) : bool :=
  match a, b with
  | [], [] => false
  | [], _ :: _ => true
  | _ :: _, [] => false
  | c :: a', d :: b' =>
      if Nat.ltb (nat_of_ascii c) (nat_of_ascii d) then true
      else if ascii_eqb c d then chars_ltb a' b' else false
  end.

Fixpoint lookup {A} (k : chars) (l : list (chars * A)) : option A :=
  match l with
  | [] => None
  | (k', v) :: l' => if chars_eqb k k' then Some v else lookup k l'
  end.
Fixpoint insert {A} (k : chars) (v : A) (l : list (chars * A)) : list (chars * A) :=
  match l with
  | [] => [(k, v)]
  | (k', v') :: l' => if chars_ltb k k' then (k, v) :: l else (k', v') :: insert k v l'
  end.
Fixpoint replace_at {A} (k : chars) (v : A) (l : list (chars * A)) : list (chars * A) :=
  match l with
  | [] => []
  | (k', v') :: l' => if chars_eqb k k' then (k', v) :: l' else (k', v') :: replace_at k v l'
  end.

(* An NXprocess: the checksum attribute, the checksums of the linked dependencies, the hash
   of the stored configuration (None: no configuration) and the results. *)
Record proc : Type := mkProc {
  p_stored : option string;
  p_deps : list string;
  p_conf : option string;
  p_data : list Z }.
(* a member of an NXentry *)
Inductive node : Type := Proc (p : proc) | Other.
Definition is_proc (x : node) : bool := match x with Proc _ => true | Other => false end.

(* a group below the root: NX_class is NXentry, missing, or something else *)
Inductive cls : Type := CEntry | CNone | CWrong.
Record group : Type := mkGroup { g_cls : cls; g_kids : list (chars * node) }.
Definition file : Type := list (chars * group).

Section Proc.
(* the digest, and what jsonpickle gives back after storing parameters *)
Context (md5 : string -> string) (rt : pyval -> pyval).

(* io/target.py:103-113 with alreadyhash=True; no configuration hash: None among the hashes *)
Definition checksum_of (deps : list string) (conf : option string) : result (option string) :=
  match conf with
  | Some h => match mergehash md5 (deps ++ [h]) with Ok s => Ok (Some s) | Err e => Err e end
  | None =>
      match deps with
      | [] => Ok None
      | _ => match calchash md5 0 (PSeq KTuple (map (PStr true) deps ++ [PNone])) with
             | Ok s => Ok (Some s)
             | Err e => Err e
             end
      end
  end.
(* io/nxfs.py:647-658 *)
Definition proc_checksum (p : proc) : result (option string) :=
  match p_stored p with
  | Some s => Ok (Some s)
  | None => checksum_of (p_deps p) (p_conf p)
  end.
Definition has_checksum (p : proc) (sum : string) : result bool :=
  match proc_checksum p with
  | Ok (Some s) => Ok (String.eqb s sum)
  | Ok None => Ok false
  | Err e => Err e
  end.

(* io/nxfs.py:220-231 iter_nxprocess, with findfirstup_is_nxclass("NXentry") 251-255;
   here: the first component of the path, None for the root *)
Definition processes (e : chars) (g : group) : list (chars * chars * proc) :=
  flat_map (fun kn => match snd kn with Proc p => [(e, fst kn, p)] | Other => [] end) (g_kids g).
Definition is_entry (g : group) : bool := match g_cls g with CEntry => true | _ => false end.
Definition all_processes (f : file) : list (chars * chars * proc) :=
  flat_map (fun eg => if is_entry (snd eg) then processes (fst eg) (snd eg) else []) f.
Definition first_entry (f : file) (here : option chars) : option (chars * group) :=
  match here with
  | None => None
  | Some e => match lookup e f with
              | Some g => if is_entry g then Some (e, g) else None
              | None => None
              end
  end.
Definition iter_processes (f : file) (here : option chars) (all : bool) : list (chars * chars * proc) :=
  match (if all then None else first_entry f here) with
  | Some (e, g) => processes e g
  | None => all_processes f
  end.

(* io/nxfs.py:437-445: the loop of find_nxprocess; an empty name matches everything *)
Definition name_matches (name s : chars) : option bool :=
  match name with [] => Some true | _ => matches name s end.
Fixpoint find_in (name : chars) (sum : string) (l : list (chars * chars * proc))
  : option (result (option (chars * chars))) :=
  match l with
  | [] => Some (Ok None)
  | (e, n, p) :: l' =>
      match name_matches name n with
      | None => None
      | Some false => find_in name sum l'
      | Some true =>
          match has_checksum p sum with
          | Err x => Some (Err x)
          | Ok true => Some (Ok (Some (e, n)))
          | Ok false => find_in name sum l'
          end
      end
  end.
(* 417-445 *)
Definition find_nxprocess (f : file) (here : option chars) (name : chars) (deps : list string)
    (params : pyval) (all : bool) : option (result (option (chars * chars))) :=
  match calc_checksum md5 deps params with
  | Err x => Some (Err x)
  | Ok sum => find_in name sum (iter_processes f here all)
  end.

(* 306-310 *)
Definition last_nxentry (f : file) : option chars :=
  fold_left (fun acc eg => if is_entry (snd eg) then Some (fst eg) else acc) f None.
Definition root_exists (f : file) (s : chars) : bool :=
  match s with [] => true | _ => match lookup s f with Some _ => true | None => false end end.

(* 149-175 _init_nxclass(root[name], "NXentry") *)
Definition init_entry (f : file) (name : chars) : result (file * chars) :=
  match lookup name f with
  | None => Ok (insert name (mkGroup CEntry []) f, name)
  | Some g =>
      match g_cls g with
      | CEntry => Ok (f, name)
      | CNone => Ok (replace_at name (mkGroup CEntry (g_kids g)) f, name)
      | CWrong => Err AlreadyExists
      end
  end.
(* 280-300 nxentry() *)
Definition nxentry (f : file) (here : option chars) : option (result (file * chars)) :=
  match first_entry f here with
  | Some (e, _) => Some (Ok (f, e))
  | None =>
      match here with
      | Some e => Some (init_entry f e)
      | None =>
          match next_nxentry_name (root_exists f) (S (S (length f))) (last_nxentry f) with
          | None => None
          | Some (Err x) => Some (Err x)
          | Some (Ok e) => Some (init_entry f e)
          end
      end
  end.

Definition kid_exists (g : group) (s : chars) : bool :=
  match s with [] => true | _ => match lookup s (g_kids g) with Some _ => true | None => false end end.
Definition kid_is_proc (g : group) (s : chars) : bool :=
  match s with [] => false | _ => match lookup s (g_kids g) with Some x => is_proc x | None => false end end.

(* 396-407: the name of the new process *)
Definition new_path (g : group) (name : chars) (noincrement : bool) : option (result chars) :=
  if kid_exists g name then
    if noincrement || negb (kid_is_proc g name) then Some (Err AlreadyExists)
    else
      match first_free (kid_exists g) (S (S (length (g_kids g)))) (new_Name name) with
      | None => None
      | Some (Err x) => Some (Err x)
      | Some (Ok n) => match name_str n with
                       | Fmt s => Some (Ok s)
                       | FErr x => Some (Err x)
                       | FOther => None
                       end
      end
  else Some (Ok name).

(* 631-645 set_config; 410-413: the new group exists from here on, whatever happens *)
Definition set_config (deps : list string) (params : pyval) : proc * result unit :=
  match calchash md5 0 (rt params) with
  | Err x => (mkProc None deps None [], Err x)
  | Ok h =>
      match checksum_of deps (Some h) with
      | Err x => (mkProc None deps (Some h) [], Err x)
      | Ok s => (mkProc s deps (Some h) [], Ok tt)
      end
  end.
Definition add_kid (f : file) (e : chars) (n : chars) (p : proc) : file :=
  match lookup e f with
  | Some g => replace_at e (mkGroup (g_cls g) (insert n (Proc p) (g_kids g))) f
  | None => f                                                 (* nxentry has just created it *)
  end.

(* 365-414 nxprocess: the file afterwards, and the process or an exception *)
Definition nxprocess (f : file) (here : option chars) (name : chars) (deps : list string)
    (params : pyval) (all noincrement : bool) : option (file * result (chars * chars)) :=
  match find_nxprocess f here name deps params all with
  | None => None
  | Some (Err x) => Some (f, Err x)
  | Some (Ok (Some loc)) => Some (f, Ok loc)
  | Some (Ok None) =>
      match nxentry f here with
      | None => None
      | Some (Err x) => Some (f, Err x)
      | Some (Ok (f1, e)) =>
          match lookup e f1 with
          | None => None
          | Some g =>
              match new_path g name noincrement with
              | None => None
              | Some (Err x) => Some (f1, Err x)
              | Some (Ok n) =>
                  let '(p, r) := set_config deps params in
                  Some (add_kid f1 e n p,
                        match r with Ok _ => Ok (e, n) | Err x => Err x end)
              end
          end
      end
  end.

(* a sequence of requests *)
Record request : Type := mkRequest {
  r_here : option chars; r_name : chars; r_deps : list string; r_params : pyval;
  r_all : bool; r_noincr : bool }.
Definition serve (f : file) (r : request) : option (file * result (chars * chars)) :=
  nxprocess f (r_here r) (r_name r) (r_deps r) (r_params r) (r_all r) (r_noincr r).
Fixpoint serve_all (f : file) (l : list request) : option file :=
  match l with
  | [] => Some f
  | r :: l' => match serve f r with Some (f', _) => serve_all f' l' | None => None end
  end.
End Proc.
