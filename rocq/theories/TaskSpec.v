(* Vocabulary of the properties of tasks. *)
From Verif Require Export ProcSpec TaskModel.

(* the first name of the output of a task *)
Definition first_name (t : task) (fam : chars) : Prop := prepare (t_name t) = Fmt fam.

(* a member that counts as the output of the task: a process below the entry of the task, with
   the name of the task (and any counter), made from the same parameters and dependencies *)
Definition is_output (md5 : string -> string) (t : task) (f : file) (n : chars) (p : proc) : Prop :=
  member f (t_entry t) n (Proc p) /\
  exists fam sum, first_name t fam /\ calc_checksum md5 (map d_sum (t_deps t)) (t_params t) = Ok sum /\
    good_match fam n /\ proc_checksum md5 p = Ok (Some sum).
(* it has everything the task computes *)
Definition complete (t : task) (p : proc) : Prop := p_data p = t_chunks t.
Definition all_complete (md5 : string -> string) (t : task) (f : file) : Prop :=
  forall n p, is_output md5 t f n p -> complete t p.

(* the file: well-formed, the entry of the task is there, names without newlines *)
Definition good_file (md5 : string -> string) (t : task) (f : file) : Prop :=
  wf f /\ entry f (t_entry t) /\ (forall n x, member f (t_entry t) n x -> n <> [] /\ ~ In newline n) /\
  all_complete md5 t f.

(* the task: no braces in its name, parameters whose hash survives storing *)
Definition good_task (md5 : string -> string) (rt : pyval -> pyval) (t : task) : Prop :=
  no_braces (t_name t) /\ ~ In newline (t_name t) /\ stable md5 rt (t_params t) /\
  exists sum, calc_checksum md5 (map d_sum (t_deps t)) (t_params t) = Ok sum.

(* what others add: outputs of this task only when complete *)
Definition good_other (md5 : string -> string) (t : task) (nx : chars * node) : Prop :=
  fst nx <> [] /\ ~ In newline (fst nx) /\
  forall p fam sum, snd nx = Proc p -> first_name t fam ->
    calc_checksum md5 (map d_sum (t_deps t)) (t_params t) = Ok sum ->
    good_match fam (fst nx) -> proc_checksum md5 p = Ok (Some sum) -> complete t p.
Definition good_env (md5 : string -> string) (t : task) (env : list (list (chars * node))) : Prop :=
  Forall (Forall (good_other md5 t)) env.

(* a random name that has nothing to do with the task: it is not a name of the output, no process
   of the file (or of others) from the same parameters has that name up to the counter, and
   others do not use it *)
Definition good_random (md5 : string -> string) (t : task) (f : file) (env : list (list (chars * node)))
    (r : chars) : Prop :=
  good_name r /\ ~ In newline r /\ (forall fam, first_name t fam -> ~ same_name fam r) /\
  (forall e n p sum, calc_checksum md5 (map d_sum (t_deps t)) (t_params t) = Ok sum ->
     entry f e -> member f e n (Proc p) -> proc_checksum md5 p = Ok (Some sum) -> ~ good_match r n) /\
  (forall b n p sum, calc_checksum md5 (map d_sum (t_deps t)) (t_params t) = Ok sum ->
     In b env -> In (n, Proc p) b -> proc_checksum md5 p = Ok (Some sum) -> ~ good_match r n) /\
  (forall b x, In b env -> ~ In (r, x) b).

(* all that was in the file, and what others have added to the entry *)
Definition grown (e : chars) (f : file) (env : list (list (chars * node))) (f' : file) : Prop :=
  extends f f' /\
  forall e' n x, member f' e' n x -> member f e' n x \/ (e' = e /\ exists b, In b env /\ In (n, x) b).

(* all of the above, and one of the random names is not used *)
Definition good_setting (md5 : string -> string) (rt : pyval -> pyval) (t : task) (f : file)
    (env : list (list (chars * node))) (randoms : list chars) : Prop :=
  good_task md5 rt t /\ good_file md5 t f /\ good_env md5 t env /\
  Forall (good_random md5 t f env) randoms /\ exists r, In r randoms /\ unused f (t_entry t) r.
(* the dependencies of the task are done *)
Definition ready (t : task) (f : file) : Prop := forall d, In d (t_deps t) -> d_done d f = true.
(* a termination signal after which the execution goes on and writes more *)
Definition goes_on (t : task) : Prop := exists k, t_fail t = Signal k true /\ skipn k (t_chunks t) <> [].
