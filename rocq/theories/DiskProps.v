From Coq Require Import String.
From Verif Require Import Text DiskModel DiskSpec DiskProofs DiskOpsProofs DiskWitness.
Close Scope string_scope.
Local Open Scope nat_scope.
Local Notation s := list_ascii_of_string.
(* a disk for the examples: a/f, a/g/h, b/k, l -> a, x -> y -> x, a/self -> . *)
Definition disk : node :=
  Dir [(s "a", Dir [(s "f", File (s "1")); (s "g", Dir [(s "h", File (s "2"))]); (s "self", Link false [])]); (s "b", Dir [(s "k", File (s "3")); (s "e", Dir [])]);
       (s "l", Link false [Nm (s "a")]); (s "x", Link false [Nm (s "y")]); (s "y", Link false [Nm (s "x")])].
Local Ltac old := eapply look_plain; [discriminate|vm_compute; reflexivity].
Local Ltac new := match goal with |- plain ?r ?p => let d := eval vm_compute in (removelast p) in let x := eval vm_compute in (last p []) in change (plain r (d ++ [x])); eapply plain_new; vm_compute; reflexivity end.

(* ---- C76: moving never loses data ---- *)
Theorem C76_move : forall (maxlinks limit : nat) (device : path -> nat) (candidates : list chars) root src dest rename dest' root', (forall p q, device p = device q) -> lexists maxlinks root src = true ->
  move maxlinks limit device candidates src dest false rename root = (Ok dest', root') ->
  dest' = target maxlinks root src dest rename /\ exists_ maxlinks root dest' = false /\
  exists root1 s d, grown root root1 /\ lreal maxlinks root src = Some s /\ lreal maxlinks root1 dest' = Some d /\ moved root1 root' s d /\ (peek root1 d = None \/ exists a t, peek root1 d = Some (ALink a t)).
Proof. exact move_moves. Qed.
Print Assumptions C76_move.
Example C76_move_case : exists root', move 8 9 (fun _ => 0) [] [s "a"; s "g"] [s "l"; s "new"; s "place"] false false disk = (Ok [s "l"; s "new"; s "place"], root') /\
  peek root' [s "a"; s "new"; s "place"; s "h"] = Some (AFile (s "2")) /\ peek root' [s "a"; s "g"] = None.
Proof. eexists. vm_compute. split; [reflexivity|]. split; reflexivity. Qed.
Theorem C76_files : forall (maxlinks limit : nat) (device : path -> nat) (candidates : list chars) root src dest rename dest' root', (forall p q, device p = device q) -> lexists maxlinks root src = true ->
  move maxlinks limit device candidates src dest false rename root = (Ok dest', root') ->
  exists s d, (forall q c, peek root q = Some (AFile c) -> peek root' (relocate s d q) = Some (AFile c)) /\
    (forall z c, peek root' z = Some (AFile c) -> exists q, peek root q = Some (AFile c) /\ relocate s d q = z) /\
    (forall q q' c c', peek root q = Some (AFile c) -> peek root q' = Some (AFile c') -> relocate s d q = relocate s d q' -> q = q').
Proof. exact move_files. Qed.
Print Assumptions C76_files.
Example C76_files_case : exists root', move 8 9 (fun _ => 0) [] [s "l"; s "f"] [s "b"] false false disk = (Ok [s "b"; s "f"], root') /\
  peek root' [s "b"; s "f"] = Some (AFile (s "1")) /\ peek root' [s "a"; s "f"] = None /\ peek root' [s "b"; s "k"] = Some (AFile (s "3")).
Proof. eexists. vm_compute. split; [reflexivity|]. split; [reflexivity|]. split; reflexivity. Qed.
Theorem C76_error : forall (maxlinks limit : nat) (device : path -> nat) (candidates : list chars) root src dest rename e root', (forall p q, device p = device q) ->
  move maxlinks limit device candidates src dest false rename root = (Err e, root') -> grown root root' /\ (e = AlreadyExists -> root' = root).
Proof. exact move_error. Qed.
Print Assumptions C76_error.
Example C76_error_case : (exists root', move 8 9 (fun _ => 0) [] [s "no"] [s "b"; s "c"; s "d"] false false disk = (Err OSError, root') /\ peek root' [s "b"; s "c"] = Some ADir) /\
  move 8 9 (fun _ => 0) [] [s "a"; s "f"] [s "b"; s "k"] false false disk = (Err AlreadyExists, disk) /\
  move 8 9 (fun _ => 0) [] [s "a"] [s "a"; s "g"] false false disk = (Err OSError, disk).
Proof. split; [eexists; vm_compute; split; reflexivity|]. split; vm_compute; reflexivity. Qed.
Theorem C76_refuses : forall (maxlinks limit : nat) (device : path -> nat) (candidates : list chars) root src dest rename, exists_ maxlinks root (target maxlinks root src dest rename) = true ->
  move maxlinks limit device candidates src dest false rename root = (Err AlreadyExists, root) /\ forall follow, rename = false -> copy maxlinks limit src dest false follow root = (Err AlreadyExists, root).
Proof. exact move_exists. Qed.
Print Assumptions C76_refuses.
Example C76_refuses_case : exists_ 8 disk (target 8 disk [s "a"; s "f"] [s "b"; s "k"] false) = true /\ exists_ 8 disk (target 8 disk [s "q"; s "g"] [s "l"] false) = true /\ target 8 disk [s "q"; s "g"] [s "l"] false = [s "l"; s "g"].
Proof. vm_compute. split; [reflexivity|]. split; reflexivity. Qed.
Theorem C76_runs : forall (maxlinks limit : nat) (device : path -> nat) (candidates : list chars) root src dest force rename, (forall p q, device p = device q) -> let d := target maxlinks root src dest rename in
  plain root src -> peek root src <> None -> plain root d -> peek root d = None -> apart src d ->
  exists root', move maxlinks limit device candidates src dest force rename root = (Ok d, root') /\ moved root root' src d.
Proof. exact move_runs. Qed.
Print Assumptions C76_runs.
Example C76_runs_case : let src := [s "a"; s "g"] in let d := target 8 disk src [s "b"] false in d = [s "b"; s "g"] /\ plain disk src /\ peek disk src <> None /\ plain disk d /\ peek disk d = None /\ apart src d.
Proof. cbv zeta. split; [reflexivity|]. split; [old|]. split; [discriminate|]. split; [new|]. split; [reflexivity|]. split; reflexivity. Qed.
Theorem C76_force : forall (maxlinks limit : nat) (device : path -> nat) (candidates : list chars) root src dest rename, 0 < limit -> (forall p q, device p = device q) -> let d := target maxlinks root src dest rename in
  plain root src -> peek root src <> None -> plain root d -> peek root d <> None -> (forall a t, peek root d <> Some (ALink a t)) -> apart src d ->
  exists root', move maxlinks limit device candidates src dest true rename root = (Ok d, root') /\ moved root root' src d.
Proof. exact move_force. Qed.
Print Assumptions C76_force.
Example C76_force_case : let src := [s "a"; s "g"] in let d := target 8 disk src [s "b"] true in d = [s "b"] /\ plain disk src /\ peek disk src <> None /\ plain disk d /\ peek disk d <> None /\ (forall a t, peek disk d <> Some (ALink a t)) /\ apart src d.
Proof. cbv zeta. split; [reflexivity|]. split; [old|]. split; [discriminate|]. split; [old|]. split; [discriminate|]. split; [discriminate|]. split; reflexivity. Qed.
Theorem C76_across : forall (maxlinks limit : nat) (device : path -> nat) (candidates : list chars) root src dest rename c cs, 0 < limit -> is_dir (Some root) = true -> let d := target maxlinks root src dest rename in let tmp := parent d ++ [last d [] ++ c] in
  device (removelast src) <> device (parent d) -> candidates = c :: cs -> c <> [] ->
  plain root src -> peek root src <> None -> (forall a t, peek root src <> Some (ALink a t)) -> plain root d -> peek root d = None -> apart src d -> peek root tmp = None -> apart src tmp ->
  exists root', move maxlinks limit device candidates src dest false rename root = (Ok d, root') /\ moved root root' src d.
Proof. exact move_across. Qed.
Print Assumptions C76_across.
Example C76_across_case : let src := [s "a"; s "g"] in let d := target 8 disk src [s "b"] false in let dev := fun p : path => match p with x :: _ => if chars_eqb x (s "b") then 1 else 0 | [] => 0 end in let tmp := parent d ++ [last d [] ++ s "Q7"] in
  dev (removelast src) <> dev (parent d) /\ plain disk src /\ plain disk d /\ peek disk d = None /\ apart src d /\ peek disk tmp = None /\ apart src tmp /\
  exists root', move 8 9 dev [s "Q7"] src [s "b"] false false disk = (Ok d, root') /\ peek root' [s "b"; s "g"; s "h"] = Some (AFile (s "2")) /\ peek root' src = None /\ peek root' tmp = None.
Proof. cbv zeta. split; [discriminate|]. split; [old|]. split; [new|]. split; [reflexivity|]. split; [split; reflexivity|]. split; [reflexivity|]. split; [split; reflexivity|]. eexists. vm_compute. split; [reflexivity|]. split; [reflexivity|]. split; reflexivity. Qed.
Theorem C76_mkdir : forall (maxlinks : nat) root p rec force r root', mkdir maxlinks rec force p root = (r, root') -> grown root root'.
Proof. exact mkdir_keeps. Qed.
Print Assumptions C76_mkdir.
Example C76_mkdir_case : exists root', mkdir 8 true true [s "l"; s "n"; s "m"] disk = (Ok tt, root') /\ peek root' [s "a"; s "n"; s "m"] = Some ADir /\
  mkdir 8 true true [s "a"; s "f"] disk = (Err NotADirectory, disk) /\ mkdir 8 false true [s "n"; s "m"] disk = (Err MissingParameter, disk) /\ mkdir 8 true false [s "a"] disk = (Err AlreadyExists, disk).
Proof. eexists. vm_compute. split; [reflexivity|]. split; [reflexivity|]. split; [reflexivity|]. split; reflexivity. Qed.
Theorem C76_force_itself_refuted : forall (maxlinks limit : nat) (device : path -> nat) (candidates : list chars) root src dest rename, 0 < limit -> target maxlinks root src dest rename = src -> plain root src -> peek root src <> None -> (forall a t, peek root src <> Some (ALink a t)) ->
  exists root', move maxlinks limit device candidates src dest true rename root = (Err OSError, root') /\ removed root root' src.
Proof. exact move_force_self. Qed.
Print Assumptions C76_force_itself_refuted.
Example C76_force_itself_refuted_case : let src := [s "a"; s "f"] in target 8 disk src [s "a"] false = src /\ target 8 disk src src false = src /\ plain disk src /\ peek disk src = Some (AFile (s "1")) /\
  exists root', move 8 9 (fun _ => 0) [] src [s "a"] true false disk = (Err OSError, root') /\ peek root' src = None.
Proof. cbv zeta. split; [reflexivity|]. split; [reflexivity|]. split; [old|]. split; [reflexivity|]. eexists. vm_compute. split; reflexivity. Qed.
(* replacing a link removes what it points to; a link moved to another file system takes what it points to from where it was *)
Theorem C76_link_refuted :
  (exists root root' src dest q c, move 8 9 (fun _ => 0) [] src dest true true root = (Ok dest, root') /\ below src q = None /\ below dest q = None /\ peek root q = Some (AFile c) /\ forall z, peek root' z <> Some (AFile c)) /\
  (exists device root root' src dest q c, move 8 9 device [s "Q7"] src dest false false root = (Ok dest, root') /\ below src q = None /\ below dest q = None /\ peek root q = Some (AFile c) /\ peek root' q = None).
Proof. exact link_refuted. Qed.
Print Assumptions C76_link_refuted.

(* ---- C77: removing ---- *)
Theorem C77_recursive : forall (maxlinks limit : nat) root p s m, 0 < limit -> lreal maxlinks root p = Some s -> s <> [] -> look root s = Some m -> (forall a t, m <> Link a t) ->
  exists root', remove maxlinks limit true p root = (Ok tt, root') /\ removed root root' s.
Proof. exact remove_recursive. Qed.
Print Assumptions C77_recursive.
Example C77_recursive_case : exists m, lreal 8 disk [s "l"; s "g"] = Some [s "a"; s "g"] /\ look disk [s "a"; s "g"] = Some m /\ (forall a t, m <> Link a t) /\
  exists root', remove 8 9 true [s "l"; s "g"] disk = (Ok tt, root') /\ peek root' [s "a"; s "g"; s "h"] = None /\ peek root' [s "a"; s "f"] = Some (AFile (s "1")).
Proof. eexists. split; [reflexivity|]. split; [reflexivity|]. split; [discriminate|]. eexists. vm_compute. split; [reflexivity|]. split; reflexivity. Qed.
Theorem C77_one : forall (maxlinks limit : nat) root p s m, 0 < limit -> lreal maxlinks root p = Some s -> s <> [] -> look root s = Some m ->
  match m with
  | Dir (_ :: _) => remove maxlinks limit false p root = (Err NotEmpty, root)
  | _ => exists root', remove maxlinks limit false p root = (Ok tt, root') /\ removed root root' s
  end.
Proof. exact remove_one. Qed.
Print Assumptions C77_one.
Example C77_one_case : remove 8 9 false [s "l"; s "g"] disk = (Err NotEmpty, disk) /\ (exists root', remove 8 9 false [s "l"] disk = (Ok tt, root') /\ peek root' [s "l"] = None /\ peek root' [s "a"; s "f"] = Some (AFile (s "1"))) /\
  (exists root', remove 8 9 false [s "x"] disk = (Ok tt, root') /\ peek root' [s "x"] = None) /\ exists root', remove 8 9 false [s "b"; s "e"] disk = (Ok tt, root') /\ peek root' [s "b"; s "e"] = None.
Proof. split; [vm_compute; reflexivity|]. split; [eexists; vm_compute; split; [reflexivity|split; reflexivity]|]. split; eexists; vm_compute; split; reflexivity. Qed.
Theorem C77_missing : forall (maxlinks limit : nat) root p recursive, 0 < limit -> lexists maxlinks root p = false -> remove maxlinks limit recursive p root = (Ok tt, root).
Proof. exact remove_missing. Qed.
Print Assumptions C77_missing.
Example C77_missing_case : lexists 8 disk [s "a"; s "nothing"] = false /\ lexists 8 disk [s "x"; s "nothing"] = false /\ lexists 8 disk [s "x"] = true.
Proof. vm_compute. split; [reflexivity|]. split; reflexivity. Qed.
Theorem C77_link : forall (maxlinks limit : nat) root p abs t d m, 1 < limit -> link_at root p abs t -> linkdest maxlinks root p = Some d -> plain root d -> look root d = Some m -> (forall a t, m <> Link a t) -> below d p = None ->
  exists root', remove maxlinks limit true p root = (Ok tt, root') /\ forall q, peek root' q = match below d q, below p q with None, None => peek root q | _, _ => None end.
Proof. exact remove_link. Qed.
Print Assumptions C77_link.
Example C77_link_case : link_at disk [s "l"] false [Nm (s "a")] /\ linkdest 8 disk [s "l"] = Some [s "a"] /\ plain disk [s "a"] /\ below [s "a"] [s "l"] = None.
Proof. split; [split; [old|reflexivity]|]. split; [reflexivity|]. split; [old|reflexivity]. Qed.
Theorem C77_loop_refuted : forall (maxlinks limit : nat) root (loop : path -> Prop), (forall q, loop q -> exists d, islink maxlinks root q = true /\ linkdest maxlinks root q = Some d /\ loop d) ->
  forall p, loop p -> remove maxlinks limit true p root = (Err RuntimeError, root).
Proof. exact remove_loop. Qed.
Print Assumptions C77_loop_refuted.
Example C77_loop_refuted_case : let loop := fun q => q = [s "x"] \/ q = [s "y"] in loop [s "x"] /\ forall q, loop q -> exists d, islink 8 disk q = true /\ linkdest 8 disk q = Some d /\ loop d.
Proof. cbv zeta. split; [now left|]. intros q [-> | ->]; eexists; (split; [reflexivity|]); (split; [reflexivity|]); [now right|now left]. Qed.
(* a link that is inside the directory it points to: the directory goes, then the link is not found *)
Theorem C77_inside_refuted : exists root root' p d, islink 8 root p = true /\ linkdest 8 root p = Some d /\ below d p <> None /\ peek root d = Some ADir /\ remove 8 9 true p root = (Err OSError, root') /\ peek root' d = None.
Proof. exact inside_refuted. Qed.
Print Assumptions C77_inside_refuted.

(* ---- C78: copies, links and temporary nodes ---- *)
Theorem C78_copy : forall (maxlinks limit : nat) root src dest force follow s, let d := target maxlinks root src dest false in is_dir (Some root) = true -> real maxlinks root src = Some s -> peek root s <> None -> (islink maxlinks root src = true -> follow = true) -> plain root d -> peek root d = None -> below s d = None ->
  exists root', copy maxlinks limit src dest force follow root = (Ok d, root') /\ copied root root' s d.
Proof. exact copy_runs. Qed.
Print Assumptions C78_copy.
Example C78_copy_case : let d := target 8 disk [s "l"] [s "b"; s "c"] false in d = [s "b"; s "c"] /\ real 8 disk [s "l"] = Some [s "a"] /\ peek disk [s "a"] <> None /\ plain disk d /\ peek disk d = None /\ below [s "a"] d = None /\
  exists root', copy 8 9 [s "l"] [s "b"; s "c"] false true disk = (Ok d, root') /\ peek root' [s "b"; s "c"; s "g"; s "h"] = Some (AFile (s "2")) /\ peek root' [s "b"; s "c"; s "self"] = Some (ALink false []) /\ peek root' [s "a"; s "g"; s "h"] = Some (AFile (s "2")).
Proof. cbv zeta. split; [reflexivity|]. split; [reflexivity|]. split; [discriminate|]. split; [new|]. split; [reflexivity|]. split; [reflexivity|]. eexists. vm_compute. split; [reflexivity|]. split; [reflexivity|]. split; reflexivity. Qed.
Theorem C78_copy_force : forall (maxlinks limit : nat) root src dest follow, 0 < limit -> let d := target maxlinks root src dest false in is_dir (Some root) = true -> plain root src -> peek root src <> None -> (forall a t, peek root src <> Some (ALink a t)) ->
  plain root d -> peek root d <> None -> (forall a t, peek root d <> Some (ALink a t)) -> apart src d ->
  exists root', copy maxlinks limit src dest true follow root = (Ok d, root') /\ copied root root' src d.
Proof. exact copy_force. Qed.
Print Assumptions C78_copy_force.
Example C78_copy_force_case : let src := [s "a"; s "f"] in let d := target 8 disk src [s "b"; s "k"] false in plain disk src /\ peek disk src <> None /\ plain disk d /\ peek disk d <> None /\ apart src d /\
  exists root', copy 8 9 src [s "b"; s "k"] true false disk = (Ok d, root') /\ peek root' [s "b"; s "k"] = Some (AFile (s "1")) /\ peek root' src = Some (AFile (s "1")).
Proof. cbv zeta. split; [old|]. split; [discriminate|]. split; [old|]. split; [discriminate|]. split; [split; reflexivity|]. eexists. vm_compute. split; [reflexivity|]. split; reflexivity. Qed.
Theorem C78_copy_keeps : forall (maxlinks limit : nat) root src dest follow r root', copy maxlinks limit src dest false follow root = (r, root') ->
  forall q t, peek root q = Some t -> peek root' q = Some t.
Proof. exact copy_keeps. Qed.
Print Assumptions C78_copy_keeps.
Example C78_copy_keeps_case : (exists root', copy 8 9 [s "no"] [s "n"; s "m"] false false disk = (Err OSError, root') /\ peek root' [s "n"] = Some ADir) /\ exists root', copy 8 9 [s "a"; s "f"] [s "b"] false false disk = (Ok [s "b"; s "f"], root').
Proof. split; eexists; vm_compute; [split; reflexivity|reflexivity]. Qed.
Theorem C78_link : forall (maxlinks : nat) root p d, plain root p -> peek root p = None ->
  exists root', link maxlinks p d root = (Ok p, root') /\ linkdest maxlinks root' p = Some d /\ islink maxlinks root' p = true /\ forall q, below p q = None -> peek root' q = peek root q.
Proof. exact link_points. Qed.
Print Assumptions C78_link.
Example C78_link_case : plain disk [s "a"; s "g"; s "n"] /\ relpath (parent [s "a"; s "g"; s "n"]) [s "a"; s "q"; s "r"] = [Up; Nm (s "q"); Nm (s "r")] /\
  exists root', link 8 [s "a"; s "g"; s "n"] [s "b"; s "k"] disk = (Ok [s "a"; s "g"; s "n"], root') /\ linkdest 8 root' [s "a"; s "g"; s "n"] = Some [s "b"; s "k"].
Proof. split; [new|]. split; [reflexivity|]. eexists. vm_compute. split; reflexivity. Qed.
Theorem C78_link_followed : forall (maxlinks : nat) root p d root', 0 < maxlinks -> plain root p -> peek root p = None -> plain root d -> peek root d <> None -> (forall a t, peek root d <> Some (ALink a t)) -> link maxlinks p d root = (Ok p, root') ->
  exists m m', look root d = Some m /\ stat maxlinks root' p = Some m' /\ stat maxlinks root' d = Some m' /\ thing_of m' = thing_of m.
Proof. exact link_followed. Qed.
Print Assumptions C78_link_followed.
Example C78_link_followed_case : exists root', link 8 [s "a"; s "g"; s "n"] [s "b"; s "k"] disk = (Ok [s "a"; s "g"; s "n"], root') /\ plain disk [s "b"; s "k"] /\ stat 8 root' [s "a"; s "g"; s "n"] = Some (File (s "3")).
Proof. eexists. split; [vm_compute; reflexivity|]. split; [old|vm_compute; reflexivity]. Qed.
Theorem C78_temp_renamed : forall (maxlinks limit : nat) (device : path -> nat) (candidates : list chars) root tmp name force rm, (forall p q, device p = device q) -> plain root tmp -> peek root tmp <> None -> (forall a t, peek root tmp <> Some (ALink a t)) -> plain root name -> peek root name = None -> apart tmp name ->
  exists root', end_temp maxlinks limit device candidates tmp (Some name) force rm root = (Ok tt, root') /\ moved root root' tmp name.
Proof. exact temp_renamed. Qed.
Print Assumptions C78_temp_renamed.
Example C78_temp_renamed_case : plain disk [s "a"; s "g"] /\ plain disk [s "b"; s "g"] /\ peek disk [s "b"; s "g"] = None /\ apart [s "a"; s "g"] [s "b"; s "g"].
Proof. split; [old|]. split; [new|]. split; [reflexivity|]. split; reflexivity. Qed.
Theorem C78_temp_dropped : forall (maxlinks limit : nat) (device : path -> nat) (candidates : list chars) root tmp name rm, 0 < limit -> plain root tmp -> peek root tmp <> None -> (forall a t, peek root tmp <> Some (ALink a t)) -> exists_ maxlinks root name = true ->
  exists root', end_temp maxlinks limit device candidates tmp (Some name) false rm root = (Ok tt, root') /\ removed root root' tmp.
Proof. exact temp_dropped. Qed.
Print Assumptions C78_temp_dropped.
Example C78_temp_dropped_case : plain disk [s "a"; s "g"] /\ exists_ 8 disk [s "b"; s "k"] = true /\
  exists root', end_temp 8 9 (fun _ => 0) [] [s "a"; s "g"] (Some [s "b"; s "k"]) false true disk = (Ok tt, root') /\ peek root' [s "a"; s "g"] = None /\ peek root' [s "b"; s "k"] = Some (AFile (s "3")).
Proof. split; [old|]. split; [reflexivity|]. eexists. vm_compute. split; [reflexivity|]. split; reflexivity. Qed.
Theorem C78_temp_replaces : forall (maxlinks limit : nat) (device : path -> nat) (candidates : list chars) root tmp name rm, 0 < limit -> (forall p q, device p = device q) -> plain root tmp -> peek root tmp <> None -> (forall a t, peek root tmp <> Some (ALink a t)) -> plain root name -> peek root name <> None -> (forall a t, peek root name <> Some (ALink a t)) -> apart tmp name ->
  exists root', end_temp maxlinks limit device candidates tmp (Some name) true rm root = (Ok tt, root') /\ moved root root' tmp name.
Proof. exact temp_replaces. Qed.
Print Assumptions C78_temp_replaces.
Example C78_temp_replaces_case : plain disk [s "a"; s "g"] /\ plain disk [s "b"] /\ apart [s "a"; s "g"] [s "b"] /\
  exists root', end_temp 8 9 (fun _ => 0) [] [s "a"; s "g"] (Some [s "b"]) true true disk = (Ok tt, root') /\ peek root' [s "b"; s "h"] = Some (AFile (s "2")) /\ peek root' [s "b"; s "k"] = None.
Proof. split; [old|]. split; [old|]. split; [split; reflexivity|]. eexists. vm_compute. split; [reflexivity|]. split; reflexivity. Qed.
Theorem C78_temp_nothing : forall (maxlinks limit : nat) (device : path -> nat) (candidates : list chars) root tmp name force rm, exists_ maxlinks root tmp = false -> end_temp maxlinks limit device candidates tmp (Some name) force rm root = (Ok tt, root).
Proof. exact temp_nothing. Qed.
Print Assumptions C78_temp_nothing.
Example C78_temp_nothing_case : exists_ 8 disk [s "a"; s "tmp"] = false. Proof. reflexivity. Qed.
Theorem C78_temp_nameless : forall (maxlinks limit : nat) (device : path -> nat) (candidates : list chars) root tmp m, 0 < limit -> plain root tmp -> look root tmp = Some m -> (forall a t, m <> Link a t) ->
  (exists root', end_temp maxlinks limit device candidates tmp None false true root = (Ok tt, root') /\ removed root root' tmp) /\
  end_temp maxlinks limit device candidates tmp None false false root = (Ok tt, root).
Proof. exact temp_nameless. Qed.
Print Assumptions C78_temp_nameless.
Example C78_temp_nameless_case : plain disk [s "a"; s "f"] /\ look disk [s "a"; s "f"] = Some (File (s "1")). Proof. split; [old|reflexivity]. Qed.
Theorem C78_copy_link_refuted : forall (maxlinks limit : nat) root src dest force, islink maxlinks root src = true -> plain root (target maxlinks root src dest false) -> peek root (target maxlinks root src dest false) = None ->
  copy maxlinks limit src dest force false root = (Err TypeError, root).
Proof. exact copy_link. Qed.
Print Assumptions C78_copy_link_refuted.
Example C78_copy_link_refuted_case : islink 8 disk [s "l"] = true /\ target 8 disk [s "l"] [s "b"] false = [s "b"; s "l"] /\ plain disk [s "b"; s "l"] /\ peek disk [s "b"; s "l"] = None.
Proof. split; [reflexivity|]. split; [reflexivity|]. split; [new|reflexivity]. Qed.
Theorem C78_copy_link_force_refuted : forall (maxlinks limit : nat) root src dest, 0 < limit -> let d := target maxlinks root src dest false in plain root src -> islink maxlinks root src = true -> plain root d -> peek root d <> None -> (forall a t, peek root d <> Some (ALink a t)) -> apart src d ->
  exists root', copy maxlinks limit src dest true false root = (Err TypeError, root') /\ removed root root' d.
Proof. exact copy_link_force. Qed.
Print Assumptions C78_copy_link_force_refuted.
Example C78_copy_link_force_refuted_case : let d := target 8 disk [s "l"] [s "b"; s "k"] false in plain disk [s "l"] /\ islink 8 disk [s "l"] = true /\ plain disk d /\ peek disk d = Some (AFile (s "3")) /\ apart [s "l"] d.
Proof. cbv zeta. split; [old|]. split; [reflexivity|]. split; [old|]. split; [reflexivity|]. split; reflexivity. Qed.
Theorem C78_copy_force_itself_refuted : forall (maxlinks limit : nat) root src dest follow, 0 < limit -> target maxlinks root src dest false = src -> plain root src -> peek root src <> None -> (forall a t, peek root src <> Some (ALink a t)) ->
  exists root', copy maxlinks limit src dest true follow root = (Err OSError, root') /\ removed root root' src.
Proof. exact copy_force_self. Qed.
Print Assumptions C78_copy_force_itself_refuted.
Example C78_copy_force_itself_refuted_case : let src := [s "a"; s "f"] in target 8 disk src [s "a"] false = src /\ plain disk src /\ peek disk src = Some (AFile (s "1")).
Proof. cbv zeta. split; [reflexivity|]. split; [old|reflexivity]. Qed.
