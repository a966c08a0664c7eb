(* C47: what opening in a mode does. C66: the same for HDF5 files. *)
From Coq Require Import String.
Close Scope string_scope.
From Verif Require Import ModeSpec ModeProofs.
Local Open Scope nat_scope.
Local Notation s := list_ascii_of_string.

(* ---- the mode that is used: the one asked for or the default of the path ---- *)
Theorem C47_effective : forall d a, local_mode d ->
  local_mode (effective d a) /\ (effective d a = d \/ Some (effective d a) = a) /\ effective d None = d /\
  effective d (Some MOther) = d.
Proof. exact (fun d a L => conj (effective_local d a L) (conj (effective_choice d a) (conj (effective_default d) (proj1 (effective_other d L))))). Qed.
Print Assumptions C47_effective.
(* a path for reading only reads; one in mode r+ makes no files; one in an appending mode never
   empties a file; one in an exclusive mode stays exclusive unless mode w is asked for *)
Theorem C47_restricted : forall d a,
  (d = MR -> effective d a = MR) /\ (d = MRP -> ~ may_create (effective d a)) /\
  (at_end d -> ~ may_truncate (effective d a) /\ ~ needs_new (effective d a)) /\
  (needs_new d -> a <> Some MW -> a <> Some MWP -> effective d a = d) /\
  (may_truncate d -> effective d a <> MR -> may_truncate (effective d a)).
Proof.
  exact (fun d a => conj (fun E => eq_trans (f_equal (fun x => effective x a) E) (effective_r a))
    (conj (fun E => eq_ind_r (fun x => ~ may_create (effective x a)) (effective_rp a) E)
    (conj (effective_a d a) (conj (effective_x d a) (effective_w d a))))).
Qed.
Print Assumptions C47_restricted.
Example C47_restricted_example : effective MAP (Some MW) = MAP /\ effective MAP (Some MR) = MR /\ effective MRP (Some MW) = MRP /\
  effective MX (Some MAP) = MX /\ effective MW (Some MR) = MR.
Proof. repeat split. Qed.

(* ---- the effect ---- *)
(* reading, or a path for reading, changes nothing whatever the block does *)
Theorem C47_readonly_partial : forall f n d a l f' out r, d = MR \/ (a = Some MR /\ ~ needs_new d) ->
  path_open f n d a l = (f', out, r) -> f' = f.
Proof. exact readonly. Qed.
Print Assumptions C47_readonly_partial.
(* only the file at the end of the links is touched *)
Theorem C47_only : forall f n m l f' out r, fopen f n m l = (f', out, r) -> only_changes f f' (target f n m).
Proof. exact fopen_only. Qed.
Print Assumptions C47_only.
Theorem C47_no_new : forall f n m l f' out r, ~ may_create m -> local_mode m -> fopen f n m l = (f', out, r) ->
  forall k, f_node f' k = Absent <-> f_node f k = Absent.
Proof. exact fopen_no_new. Qed.
Print Assumptions C47_no_new.
(* an existing file: w and w+ start with an empty one, r+ writes over its beginning, a and a+ at its end *)
Theorem C47_existing : forall f n m t c r w ds, local_mode m -> ~ needs_new m -> writes m = true ->
  follow max_links f n = inl t -> f_node f t = File c r w -> (reads m = true -> r = true) -> w = true ->
  exists f', fopen f n m (map Write ds) = (f', [], None) /\ only_changes f f' t /\
    f_node f' t = File (match m with
                        | MW | MWP => concat ds
                        | MRP => over c (concat ds)
                        | _ => c ++ concat ds
                        end) r w.
Proof. exact fopen_file. Qed.
Print Assumptions C47_existing.
(* a missing file is made in the other modes, exclusive ones included *)
Theorem C47_new : forall f n m t ds, local_mode m -> may_create m ->
  (needs_new m -> t = n) -> follow max_links f n = inl t -> f_node f t = Absent -> f_parent f t = POk true ->
  exists f', fopen f n m (map Write ds) = (f', [], None) /\ only_changes f f' t /\
    f_node f' t = File (concat ds) true true.
Proof. exact fopen_new. Qed.
Print Assumptions C47_new.
(* opening without writing keeps the content in the modes r, r+, a and a+; reading starts at the
   beginning in r and r+, and at the end in a+ *)
Theorem C47_keeps : forall f n m t c r w, local_mode m -> ~ needs_new m -> ~ may_truncate m ->
  follow max_links f n = inl t -> f_node f t = File c r w -> (reads m = true -> r = true) -> (writes m = true -> w = true) ->
  fopen f n m [] = (f, [], None) /\
  (m = MR \/ m = MRP -> fopen f n m [Read] = (f, [c], None)) /\
  (m = MAP -> fopen f n m [Read] = (f, [[]], None) /\ fopen f n m [Rewind; Read] = (f, [c], None)).
Proof. exact fopen_update. Qed.
Print Assumptions C47_keeps.
(* writing and reading back *)
Theorem C47_round_trip_partial : forall f n d c t, may_truncate d -> follow max_links f n = inl t ->
  (f_node f t = Absent /\ f_parent f t = POk true \/ exists c0, f_node f t = File c0 true true) ->
  exists f1, path_write f n d None c = (f1, [], None) /\ path_read f1 n d = (f1, [c], None) /\ only_changes f f1 t.
Proof. exact write_read. Qed.
Print Assumptions C47_round_trip_partial.

(* ---- errors: the files stay as they are ---- *)
Theorem C47_missing : forall f n m l t, ~ may_create m -> local_mode m -> follow max_links f n = inl t -> f_node f t = Absent ->
  fopen f n m l = (f, [], Some Missing).
Proof. exact fopen_missing. Qed.
Print Assumptions C47_missing.
Theorem C47_directory : forall f n m l t, local_mode m -> follow max_links f n = inl t -> f_node f t = Dir ->
  fopen f n m l = (f, [], Some NotAFile).
Proof. exact fopen_dir. Qed.
Print Assumptions C47_directory.
Theorem C47_exclusive : forall f n m l, needs_new m -> f_node f n <> Absent -> (exists w, f_parent f n = POk w) ->
  fopen f n m l = (f, [], Some (if isfile f n then Os EEXIST else NotAFile)).
Proof. exact fopen_exclusive. Qed.
Print Assumptions C47_exclusive.
Theorem C47_denied : forall f n m l t c r w, ~ needs_new m -> local_mode m -> follow max_links f n = inl t -> f_node f t = File c r w ->
  (reads m = true /\ r = false) \/ (writes m = true /\ w = false) ->
  fopen f n m l = (f, [], Some (Os EACCES)).
Proof. exact fopen_denied. Qed.
Print Assumptions C47_denied.
Theorem C47_parent : forall f n m l, 
  (f_parent f n = PMissing -> fopen f n m l = (f, [], Some Missing)) /\
  (f_parent f n = PNotDir -> fopen f n m l = (f, [], Some NotAFile)).
Proof. exact (fun f n m l => conj (fopen_no_parent f n m l) (fopen_parent_file f n m l)). Qed.
Print Assumptions C47_parent.

(* a file 0, a link 1 to it, a link 2 to that one, nothing at 3, a link 4 to nothing, a directory 5,
   something in a missing directory 6, links 7 and 8 to each other, a file 9 that may not be written *)
Definition ex_fs : fsys := mkFs
  (fun n => match n with
            | 0 => File (s"hello") true true | 1 => Link 0 | 2 => Link 1 | 4 => Link 3 | 5 => Dir
            | 7 => Link 8 | 8 => Link 7 | 9 => File (s"fixed") true false | _ => Absent end%nat)
  (fun n => if Nat.eqb n 6 then PMissing else POk true).
Definition content (r : fsys * list (list ascii) * option exc) (n : name) : node := f_node (fst (fst r)) n.
Example C47_effects_example :
  content (fopen ex_fs 2 MW [Write (s"a"); Write (s"bc")]) 0 = File (s"abc") true true /\
  content (fopen ex_fs 2 MRP [Write (s"a"); Write (s"bc")]) 0 = File (s"abclo") true true /\
  content (fopen ex_fs 2 MA [Write (s"a"); Write (s"bc")]) 0 = File (s"helloabc") true true /\
  content (fopen ex_fs 2 MAP [Rewind; Write (s"a")]) 0 = File (s"helloa") true true /\
  content (fopen ex_fs 3 MX [Write (s"new")]) 3 = File (s"new") true true /\
  content (fopen ex_fs 4 MA [Write (s"new")]) 3 = File (s"new") true true /\
  fopen ex_fs 2 MR [Read; Read] = (ex_fs, [s"hello"; []], None) /\
  fopen ex_fs 2 MR [Read; Write (s"x")] = (ex_fs, [s"hello"], Some (Os ENone)).
Proof. vm_compute. repeat split. Qed.
Example C47_hypotheses_example :
  follow max_links ex_fs 2 = inl 0%nat /\ follow max_links ex_fs 4 = inl 3%nat /\ follow max_links ex_fs 7 = inr ELOOP /\
  isfile ex_fs 2 = true /\ isfile ex_fs 4 = false /\ isfile ex_fs 5 = false.
Proof. vm_compute. repeat split. Qed.
Example C47_errors_example :
  snd (fopen ex_fs 4 MR []) = Some Missing /\ snd (fopen ex_fs 5 MW []) = Some NotAFile /\
  snd (fopen ex_fs 2 MXP []) = Some (Os EEXIST) /\ snd (fopen ex_fs 6 MA []) = Some Missing /\
  snd (fopen ex_fs 9 MA []) = Some (Os EACCES) /\ snd (fopen ex_fs 7 MW []) = Some NotAFile.
Proof. vm_compute. repeat split. Qed.
Example C47_round_trip_example :
  path_read (fst (fst (path_write ex_fs 2 MWP None (s"xyz")))) 2 MWP
  = (fst (fst (path_write ex_fs 2 MWP None (s"xyz"))), [s"xyz"], None).
Proof. reflexivity. Qed.

(* ---- where the modes do not do what they say ---- *)
(* a path in an exclusive mode ("error when existing") empties an existing file when mode w is asked for *)
Theorem C47_x_overwrites_refuted : forall f n d a t c, needs_new d -> a = MW \/ a = MWP ->
  follow max_links f n = inl t -> f_node f t = File c true true ->
  exists f', path_open f n d (Some a) [] = (f', [], None) /\ f_node f' t = File [] true true.
Proof. exact x_overwrites. Qed.
Print Assumptions C47_x_overwrites_refuted.
(* and cannot be read: reading raises when the file exists and makes a new file when it does not *)
Theorem C47_x_read_refuted : forall f n d, needs_new d -> (exists w, f_parent f n = POk w) ->
  (isfile f n = true -> path_read f n d = (f, [], Some (Os EEXIST))) /\
  (f_node f n = Absent -> f_parent f n = POk true ->
   exists f' out r, path_read f n d = (f', out, r) /\ f_node f' n = File [] true true).
Proof. exact x_read. Qed.
Print Assumptions C47_x_read_refuted.
(* a path in mode w empties the file in whatever mode it is opened, except r: also for appending,
   updating, or when it must not exist yet *)
Theorem C47_w_overwrites_refuted : forall f n d a t c, may_truncate d -> a <> MR ->
  follow max_links f n = inl t -> f_node f t = File c true true ->
  exists f', path_open f n d (Some a) [] = (f', [], None) /\ f_node f' t = File [] true true.
Proof. exact w_overwrites. Qed.
Print Assumptions C47_w_overwrites_refuted.
Example C47_overwrites_example : content (path_open ex_fs 1 MX (Some MW) []) 0 = File [] true true /\
  content (path_open ex_fs 1 MW (Some MX) []) 0 = File [] true true /\
  content (path_open ex_fs 1 MW (Some MA) []) 0 = File [] true true /\
  snd (path_read ex_fs 1 MXP) = Some (Os EEXIST) /\ content (path_read ex_fs 3 MX) 3 = File [] true true.
Proof. vm_compute. repeat split. Qed.
(* asking for a new file at a link to nothing: neither made nor reported as existing *)
Theorem C47_link_refuted : forall f n t l, f_node f n = Link t -> (exists w, f_parent f n = POk w) -> isfile f n = false ->
  fopen f n MX l = (f, [], Some NotAFile).
Proof. exact x_dangling. Qed.
Print Assumptions C47_link_refuted.
(* an error about another file inside the block is reported as an error about this one *)
Theorem C47_block_refuted : forall f n t c r w, follow max_links f n = inl t -> f_node f t = File c r w -> r = true ->
  fopen f n MR [RaiseOs ENOENT] = (f, [], Some Missing) /\
  fopen f n MR [RaiseOs EISDIR] = (f, [], Some NotAFile).
Proof. exact body_error. Qed.
Print Assumptions C47_block_refuted.

(* ---- C66: HDF5 files ---- *)
Theorem C66_modes_partial : forall m,
  h5_restrict MR m = MR /\ In (h5_restrict MRP m) [MR; MRP] /\ In (h5_restrict MA m) [MR; MA] /\
  h5_restrict MX m = MX /\ h5_restrict MW m = match m with MR => MR | _ => MW end.
Proof.
  exact (fun m => conj (h5_r m) (conj (h5_rp m) (conj (h5_a m)
    (conj (match h5_x m with or_introl E => eq_sym E | or_intror F => False_ind _ F end) (h5_w m))))).
Qed.
Print Assumptions C66_modes_partial.
(* reading, updating and appending file objects never empty an existing file *)
Theorem C66_keeps_partial : forall d m, In d [MR; MRP; MA] -> exists rw, h5_existing (h5_restrict d m) = Keep rw.
Proof. exact h5_keeps. Qed.
Print Assumptions C66_keeps_partial.
Theorem C66_no_new_partial : forall d m, In d [MR; MRP] -> h5_missing (h5_restrict d m) = Refuse.
Proof. exact h5_no_new. Qed.
Print Assumptions C66_no_new_partial.
Example C66_example : h5_restrict MA MRP = MA /\ h5_restrict MA MW = MA /\ h5_restrict MRP MA = MRP /\ h5_restrict MR MW = MR.
Proof. repeat split. Qed.
(* the documented mode w- is refused *)
Theorem C66_new_mode_refuted : h5_valid MWM = true /\ h5_init MWM = Err ValueError.
Proof. exact (conj eq_refl eq_refl). Qed.
Print Assumptions C66_new_mode_refuted.
(* "do not truncate device when opening files": each opening of a node empties the file of a device in mode w *)
Theorem C66_truncates_refuted : forall a, h5_existing (snd (node_modes MW a)) = Empty.
Proof. exact (fun a => f_equal h5_existing (node_w a)). Qed.
Print Assumptions C66_truncates_refuted.
(* looking whether something exists (mode r) in a device of mode x makes the file when it is
   missing, and is refused when it exists *)
Theorem C66_exists_refuted : h5_existing (h5_restrict MX MR) = Refuse /\ h5_missing (h5_restrict MX MR) = Empty.
Proof. exact (conj eq_refl eq_refl). Qed.
Print Assumptions C66_exists_refuted.
