(* Model of src/spectrocrunch/process/basetask.py:Task.run and process/nxprocess.py:Task: the
   output of a task is an NXprocess that is made under a temporary name and then renamed.
   The file is that of ProcModel.v; other programs may add members to the entry between two
   operations on the file (one batch for each operation).  An operation on the file is atomic,
   and so is the evaluation of the name of the output.  The directory on disk that goes with
   the output, logging and default plots are left out; what set_default does is only whether
   it raises. *)
From Coq Require Import String.
From Verif Require Export ProcModel.

(* a dependency: its checksum, and whether it is done (a Task: its own output exists; a path: it
   exists), process/basetask.py:88-97 *)
Record dep : Type := mkDep { d_sum : string; d_done : file -> bool }.

(* how the execution goes wrong after a number of chunks: an exception, or a termination signal
   (the tear-down runs in the signal handler, afterwards the block may go on) *)
Inductive failure : Type := NoFailure | Raises (k : nat) | Signal (k : nat) (continues : bool).

Record task : Type := mkTask {
  t_entry : chars;                     (* outputparent: an NXentry below the root *)
  t_name : chars;                      (* parameters["name"] *)
  t_params : pyval;
  t_deps : list dep;
  t_chunks : list Z;                   (* what _execute writes, in this order *)
  t_fail : failure;
  t_default : option exn }.            (* nxutils.set_default raises *)

(* the attributes of the task object that change *)
Record obj : Type := mkObj { o_target : Name; o_exists : bool }.
Definition new_obj (t : task) : obj := mkObj (new_Name (t_name t)) false.

Record world : Type := mkWorld {
  w_file : file;
  w_env : list (list (chars * node));  (* what others are going to add *)
  w_hist : list file }.                (* the contents the file had, the last one first *)

Inductive outcome : Type := NotExecuted | AlreadyDone | Finished | Raised (e : exn).

Section Files.
Context (e : chars).
Definition kids (f : file) : list (chars * node) :=
  match lookup e f with Some g => g_kids g | None => [] end.
Definition set_kids (k : list (chars * node)) (f : file) : file :=
  match lookup e f with Some g => replace_at e (mkGroup (g_cls g) k) f | None => f end.
Definition used (f : file) (n : chars) : bool :=
  match n with [] => true | _ => match lookup n (kids f) with Some _ => true | None => false end end.
Fixpoint remove_at {A} (k : chars) (l : list (chars * A)) : list (chars * A) :=
  match l with
  | [] => []
  | (k', v') :: l' => if chars_eqb k k' then l' else (k', v') :: remove_at k l'
  end.
(* io/h5fs.py:603-619 *)
Definition remove_kid (n : chars) (f : file) : file := set_kids (remove_at n (kids f)) f.
(* writing below a member; a group that is not there is made *)
Definition write_kid (n : chars) (v : Z) (f : file) : file :=
  match lookup n (kids f) with
  | Some (Proc p) => set_kids (replace_at n (Proc (mkProc (p_stored p) (p_deps p) (p_conf p) (p_data p ++ [v]))) (kids f)) f
  | Some Other => f
  | None => set_kids (insert n Other (kids f)) f
  end.
(* others only add *)
Definition add_other (f : file) (nx : chars * node) : file :=
  if used f (fst nx) then f else set_kids (insert (fst nx) (snd nx) (kids f)) f.
Definition others (b : list (chars * node)) (f : file) : file := fold_left add_other b f.
End Files.
(* io/h5fs.py:552-568 with rename=True *)
Definition rename_kid (e n e' n' : chars) (f : file) : result file :=
  if used e' f n' then Err AlreadyExists
  else match lookup n (kids e f) with
       | Some x => let f := remove_kid e n f in Ok (set_kids e' (insert n' x (kids e' f)) f)
       | None => Err MissingFile
       end.

Definition put (f : file) (w : world) : world := mkWorld f (w_env w) (f :: w_hist w).
Definition tick (e : chars) (w : world) : world :=
  match w_env w with
  | [] => w
  | b :: r => let f := others e b (w_file w) in mkWorld f r (f :: w_hist w)
  end.

Section Task.
Context (md5 : string -> string) (rt : pyval -> pyval) (t : task).
Let e := t_entry t.
Let sums := map d_sum (t_deps t).

Definition deps_done (f : file) : bool := forallb (fun d => d_done d f) (t_deps t).

(* process/nxprocess.py:41-66 outputname *)
Definition outputname (f : file) (o : obj) : option (result (chars * obj)) :=
  let str (o : obj) := match name_str (o_target o) with
                       | Fmt s => Some (Ok (s, o))
                       | FErr x => Some (Err x)
                       | FOther => None
                       end in
  if n_locked (o_target o) then str o
  else
    let tg := name_reset (o_target o) in
    match lookup e f with
    | None => str (mkObj tg (o_exists o))
    | Some g =>
        match name_str tg with
        | FErr x => Some (Err x)
        | FOther => None
        | Fmt s =>
            match find_nxprocess md5 f (Some e) s sums (t_params t) false with
            | None => None
            | Some (Err x) => Some (Err x)
            | Some (Ok (Some (_, n))) => str (mkObj (new_Name n) (o_exists o))
            | Some (Ok None) =>
                match first_free (kid_exists g) (S (S (length (g_kids g)))) tg with
                | None => None
                | Some (Err x) => Some (Err x)
                | Some (Ok tg) => str (mkObj tg (o_exists o))
                end
            end
        end
    end.

(* process/basetask.py:82-86, 103-108: self.output.exists, remembered when true *)
Definition output_exists (f : file) (o : obj) : option (result (bool * obj)) :=
  match outputname f o with
  | None => None
  | Some (Err x) => Some (Err x)
  | Some (Ok (n, o)) => Some (Ok (used e f n, o))
  end.
Definition exists_ (f : file) (o : obj) : option (result (bool * obj)) :=
  if o_exists o then Some (Ok (true, o))
  else match output_exists f o with
       | Some (Ok (b, o)) => Some (Ok (b, mkObj (o_target o) b))
       | r => r
       end.

(* process/nxprocess.py:24-39 _atomic_context_enter; None: more random names are needed *)
Fixpoint enter (randoms : list chars) (w : world) : option (world * result (chars * chars)) :=
  match randoms with
  | [] => None
  | r :: rest =>
      let w := tick e w in
      match nxprocess md5 rt (w_file w) (Some e) r sums (t_params t) true true with
      | None => None
      | Some (f, Ok loc) => Some (put f w, Ok loc)
      | Some (f, Err AlreadyExists) => enter rest (put f w)
      | Some (f, Err x) => Some (put f w, Err x)
      end
  end.

Fixpoint write_all (loc : chars * chars) (l : list Z) (w : world) : world :=
  match l with
  | [] => w
  | v :: l' => let w := tick e w in write_all loc l' (put (write_kid (fst loc) (snd loc) v (w_file w)) w)
  end.

(* process/nxprocess.py:111-115 _remove_temp_output *)
Definition remove_temp (loc : chars * chars) (w : world) : world :=
  let w := tick e w in put (remove_kid (fst loc) (snd loc) (w_file w)) w.

(* 120-131 _rename_temp_output; None: the fuel is spent *)
Fixpoint rename_temp (fuel : nat) (loc : chars * chars) (w : world) (o : obj) : option (world * result obj) :=
  match fuel with
  | O => None
  | S fuel =>
      let w := tick e w in
      if negb (used (fst loc) (w_file w) (snd loc)) then Some (w, Ok o)
      else
        let w := tick e w in
        match outputname (w_file w) o with
        | None => None
        | Some (Err x) => Some (w, Err x)
        | Some (Ok (n, o)) =>
            let w := tick e w in
            match rename_kid (fst loc) (snd loc) e n (w_file w) with
            | Ok f => Some (put f w, Ok (mkObj (name_lock (o_target o)) (o_exists o)))
            | Err AlreadyExists =>
                let w := tick e w in
                match output_exists (w_file w) o with
                | None => None
                | Some (Err x) => Some (w, Err x)
                | Some (Ok (true, o)) => rename_temp fuel loc (remove_temp loc w) o
                | Some (Ok (false, o)) => rename_temp fuel loc w o
                end
            | Err x => Some (w, Err x)
            end
        end
  end.

(* 95-110 _atomic_context_exit, 57-70 run: the exception of the block is swallowed, one of the
   tear-down is not *)
Definition finish (loc : chars * chars) (w : world) (o : obj) : option (world * obj * outcome) :=
  match rename_temp (S (S (length (w_env w)))) loc w o with
  | None => None
  | Some (w, Err x) => Some (w, o, Raised x)
  | Some (w, Ok o) =>
      Some (w, o, match t_default t with Some x => Raised x | None => Finished end)
  end.
Definition execute (loc : chars * chars) (w : world) (o : obj) : option (world * obj * outcome) :=
  match t_fail t with
  | NoFailure => finish loc (write_all loc (t_chunks t) w) o
  | Raises k => Some (remove_temp loc (write_all loc (firstn k (t_chunks t)) w), o, Finished)
  | Signal k continues =>
      let w := remove_temp loc (write_all loc (firstn k (t_chunks t)) w) in
      Some (if continues then write_all loc (skipn k (t_chunks t)) w else w, o, Finished)
  end.
Definition run (randoms : list chars) (w : world) (o : obj) : option (world * obj * outcome) :=
  if deps_done (w_file w) then
    let w := tick e w in
    match exists_ (w_file w) o with
    | None => None
    | Some (Err x) => Some (w, o, Raised x)
    | Some (Ok (true, o)) => Some (w, o, AlreadyDone)
    | Some (Ok (false, o)) =>
        match enter randoms w with
        | None => None
        | Some (w, Err x) => Some (w, o, Raised x)
        | Some (w, Ok loc) => execute loc w o
        end
    end
  else Some (w, o, NotExecuted).
End Task.
(* before running *)
Definition start (f : file) (env : list (list (chars * node))) : world := mkWorld f env [f].
