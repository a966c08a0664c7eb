(* Property C97: where alignDest saves the aligned stacks *)
From Coq Require Import String.
From Verif Require Import TextProofs StacknameModel StacknameSpec StacknameProofs.
Local Open Scope string_scope.
Local Open Scope list_scope.
Local Open Scope nat_scope.

(* The names have no slashes at their ends. *)
Theorem C97_names : forall nm e ov, Forall stripped (names (h5_init nm e ov)) /\ dir (h5_init nm e ov) = [slash] /\
  forall t, stripped (strip_edge t) /\ exists p q, t = p ++ strip_edge t ++ q.
Proof. exact init_names. Qed.
Print Assumptions C97_names.

(* Without overwriting: the search for a place ends, it takes the first of /, /entry1, /entry2, ... where none of the datasets exists. The datasets
   are created there with the asked shape and type, and nothing else in the file changes. There is a ValueError exactly when one of the datasets
   would be below a dataset or when the paths are in conflict with each other. *)
Theorem C97_new : forall fuel d h s dt,
  dir d = [slash] -> overwrite d = false -> S (length (content h)) < fuel ->
  exists k, (0 <= k <= 1 + Z.of_nat (length (content h)))%Z /\
    (forall name, In name (names d) -> ~ sits h (place d k name)) /\
    (forall i, (0 <= i < k)%Z -> exists name, In name (names d) /\ sits h (place d i name)) /\
    (room h (map (place d k) (names d)) -> exists h' l, h5_prepare fuel d h s dt = Some (Ok (h', l)) /\ base h' = base h /\
       map (locate h') l = map (place d k) (names d) /\
       (forall name, In name (names d) -> lookup path_eqb (place d k name) (content h') = Some (Data s dt)) /\
       forall p, ~ In p (map (place d k) (names d)) -> lookup path_eqb p (content h') = lookup path_eqb p (content h)) /\
    (~ room h (map (place d k) (names d)) -> h5_prepare fuel d h s dt = Some (Err ValueError)).
Proof. exact prepare_new. Qed.
Print Assumptions C97_new.

Definition ex_file (l : list (list string * object)) (b : list string) : handle := {| content := map (fun p => (map txt (fst p), snd p)) l; base := map txt b |}.
Definition ex_dest (nm : list string) (e : string) (ov : bool) : dest := h5_init (map txt nm) (txt e) ov.
Definition ex_out (r : option (result (handle * list chars))) : option (result (list (list string * object) * list string)) :=
  match r with
  | Some (Ok (h, l)) => Some (Ok (map (fun p => (map string_of_list_ascii (fst p), snd p)) (content h), map string_of_list_ascii l))
  | Some (Err e) => Some (Err e)
  | None => None
  end.
Example C97_new_holds :
  ex_out (h5_prepare 9 (ex_dest ["/a/"; "x/b"] ".n" false) (ex_file [(["x"; "b.n"], Data [1] 7); (["entry1"; "a.n"; "c"], Group)] []) [2; 3; 4] 5) =
  Some (Ok ([(["entry2"; "x"; "b.n"], Data [2; 3; 4] 5); (["entry2"; "a.n"], Data [2; 3; 4] 5); (["x"; "b.n"], Data [1] 7); (["entry1"; "a.n"; "c"], Group)],
            ["/entry2/a.n"; "/entry2/x/b.n"])).
Proof. vm_compute. reflexivity. Qed.
Example C97_new_errors :
  ex_out (h5_prepare 9 (ex_dest ["a"; "a"] "" false) (ex_file [] []) [2] 5) = Some (Err ValueError) /\
  ex_out (h5_prepare 9 (ex_dest ["a"; "a/b"] "" false) (ex_file [] []) [2] 5) = Some (Err ValueError) /\
  ex_out (h5_prepare 9 (ex_dest ["a"] "" false) (ex_file [(["a"], Group); (["entry1"], Data [1] 1)] []) [2] 5) = Some (Err ValueError).
Proof. vm_compute. auto. Qed.

(* Overwriting in a file, no extension, all datasets exist with the right shape and type: they are used and the file does not change. *)
Theorem C97_overwrite_partial : forall fuel d h s dt,
  dir d = [slash] -> overwrite d = true -> ext d = [] -> base h = [] -> names d <> [] -> Forall stripped (names d) ->
  (forall name, In name (names d) -> lookup path_eqb (components name) (content h) = Some (Data s dt)) ->
  exists l, h5_prepare fuel d h s dt = Some (Ok (h, l)) /\ map (locate h) l = map components (names d).
Proof. exact prepare_same. Qed.
Print Assumptions C97_overwrite_partial.
Example C97_overwrite_holds :
  ex_out (h5_prepare 0 (ex_dest ["a"; "x/b"] "" true) (ex_file [(["x"; "b"], Data [2; 3; 4] 5); (["a"], Data [2; 3; 4] 5)] []) [2; 3; 4] 5) =
  Some (Ok ([(["x"; "b"], Data [2; 3; 4] 5); (["a"], Data [2; 3; 4] 5)], ["/a"; "/x/b"])).
Proof. vm_compute. reflexivity. Qed.

(* Overwriting in a file, no extension, all datasets exist but one has another shape or type: as without overwriting, hence nothing is lost. *)
Theorem C97_overwrite_other : forall fuel d h s dt,
  dir d = [slash] -> overwrite d = true -> ext d = [] -> base h = [] -> Forall stripped (names d) ->
  S (length (content h)) < fuel ->
  (forall name, In name (names d) -> exists s' t', lookup path_eqb (components name) (content h) = Some (Data s' t')) ->
  (exists name, In name (names d) /\ lookup path_eqb (components name) (content h) <> Some (Data s dt)) ->
  exists k, (1 <= k <= 1 + Z.of_nat (length (content h)))%Z /\
    (forall name, In name (names d) -> ~ sits h (place d k name)) /\
    (forall i, (0 <= i < k)%Z -> exists name, In name (names d) /\ sits h (place d i name)) /\
    (room h (map (place d k) (names d)) -> exists h' l, h5_prepare fuel d h s dt = Some (Ok (h', l)) /\
       map (locate h') l = map (place d k) (names d) /\
       (forall name, In name (names d) -> lookup path_eqb (place d k name) (content h') = Some (Data s dt)) /\
       forall p, ~ In p (map (place d k) (names d)) -> lookup path_eqb p (content h') = lookup path_eqb p (content h)) /\
    (~ room h (map (place d k) (names d)) -> h5_prepare fuel d h s dt = Some (Err ValueError)).
Proof. exact prepare_other. Qed.
Print Assumptions C97_overwrite_other.
Example C97_overwrite_other_holds :
  ex_out (h5_prepare 9 (ex_dest ["a"; "b"] "" true) (ex_file [(["a"], Data [2] 5); (["b"], Data [3] 5)] []) [2] 5) =
  Some (Ok ([(["entry1"; "b"], Data [2] 5); (["entry1"; "a"], Data [2] 5); (["a"], Data [2] 5); (["b"], Data [3] 5)], ["/entry1/a"; "/entry1/b"])).
Proof. vm_compute. reflexivity. Qed.

(* Overwriting when none exists: the datasets are created at the root. *)
Theorem C97_overwrite_none : forall fuel d h s dt,
  dir d = [slash] -> overwrite d = true -> (forall name, In name (names d) -> ~ sits h (place d 0 name)) ->
  room h (map (place d 0) (names d)) ->
  exists h' l, h5_prepare fuel d h s dt = Some (Ok (h', l)) /\ map (locate h') l = map (place d 0) (names d) /\
       (forall name, In name (names d) -> lookup path_eqb (place d 0 name) (content h') = Some (Data s dt)) /\
       forall p, ~ In p (map (place d 0) (names d)) -> lookup path_eqb p (content h') = lookup path_eqb p (content h).
Proof. exact prepare_root. Qed.
Print Assumptions C97_overwrite_none.
Example C97_overwrite_none_holds :
  ex_out (h5_prepare 0 (ex_dest ["a"] ".n" true) (ex_file [(["a"], Data [1] 7)] []) [2; 3; 4] 5) =
  Some (Ok ([(["a.n"], Data [2; 3; 4] 5); (["a"], Data [1] 7)], ["/a.n"])).
Proof. vm_compute. reflexivity. Qed.

(* With an extension the type of another dataset is checked: the one without the extension. When there is none the existing dataset
   cannot be overwritten at all, when there is one a dataset of the wrong type is taken. *)
Theorem C97_extension_refuted :
  ex_out (h5_prepare 9 (ex_dest ["a"] ".n" true) (ex_file [(["a.n"], Data [2] 5)] []) [2] 5) = Some (Err KeyError) /\
  ex_out (h5_prepare 9 (ex_dest ["a"] ".n" true) (ex_file [(["a.n"], Data [2] 6); (["a"], Data [4] 5)] []) [2] 5) =
    Some (Ok ([(["a.n"], Data [2] 6); (["a"], Data [4] 5)], ["/a.n"])).
Proof. vm_compute. auto. Qed.
Print Assumptions C97_extension_refuted.

(* Overwriting when only some of the datasets exist fails. *)
Theorem C97_some_exist_refuted :
  ex_out (h5_prepare 9 (ex_dest ["a"; "b"] "" true) (ex_file [(["a"], Data [2] 5)] []) [2] 5) = Some (Err KeyError).
Proof. vm_compute. reflexivity. Qed.
Print Assumptions C97_some_exist_refuted.

(* When the destination is a group of a file, the datasets are created at the root of the file instead. *)
Theorem C97_group_refuted :
  ex_out (h5_prepare 9 (ex_dest ["a"] "" false) (ex_file [(["g"], Group)] ["g"]) [2] 5) = Some (Ok ([(["a"], Data [2] 5); (["g"], Group)], ["/a"])) /\
  locate (ex_file [] ["g"]) (txt "a") = map txt ["g"; "a"].
Proof. vm_compute. auto. Qed.
Print Assumptions C97_group_refuted.

(* ---- one file per image ---- *)
(* Different images have different file names, and the names are in the order of the images. *)
Theorem C97_files_distinct : forall d q n name name' i i', stripped name -> stripped name' -> (0 <= i < n)%Z -> (0 <= i' < n)%Z ->
  filename d q (length (dec n)) name i = filename d q (length (dec n)) name' i' -> name = name' /\ i = i'.
Proof. exact filename_inj. Qed.
Print Assumptions C97_files_distinct.
Theorem C97_files_ordered : forall d q n name i i', (0 <= i < i')%Z -> (i' < n)%Z ->
  before (filename d q (length (dec n)) name i) (filename d q (length (dec n)) name i').
Proof. exact filename_order. Qed.
Print Assumptions C97_files_ordered.
Definition ex_files (nm : list string) (e : string) (ov : bool) : dest := files_init (txt "/data/out") (map txt nm) (txt e) ov.
Example C97_files_names : map (fun i => string_of_list_ascii (filename (ex_files ["a/"] ".tif" false) (txt "/data/out_1") (length (dec 12)) (txt "a") i)) [0; 9; 10; 11]%Z =
  ["/data/out_1/a_00.tif"; "/data/out_1/a_09.tif"; "/data/out_1/a_10.tif"; "/data/out_1/a_11.tif"].
Proof. vm_compute. reflexivity. Qed.

(* Without overwriting the search for a directory ends, and with a known extension the images of at least one stack are new files. So with one
   stack no file is replaced. Missing from the full property: no file of any stack is replaced (refuted below). *)
Theorem C97_files_new_partial : forall fuel d disk n q w, overwrite d = false -> In (ext d) [txt ".tif"; txt ".tiff"; txt ".edf"] ->
  files_prepare fuel d disk n = Some (Ok (q, w)) ->
  exists name, In name (names d) /\ forall i, (0 <= i)%Z -> ~ In (filename d q w name i) disk.
Proof. exact files_new. Qed.
Print Assumptions C97_files_new_partial.
Theorem C97_files_end : forall d disk fuel, names d <> [] -> Forall stripped (names d) -> S (length disk) < fuel ->
  exists q, free_dir fuel d disk 0 (dir d) = Some q.
Proof. exact free_dir_ok. Qed.
Print Assumptions C97_files_end.
Example C97_files_new_holds : files_prepare 9 (ex_files ["a"] ".tif" false) (map txt ["/data/out/a_1.tif"; "/data/out_1/a_1.edf"; "/data/out_1/b.tif"]) 12 =
  Some (Ok (txt "/data/out_1", 2)) /\
  files_prepare 9 (ex_files ["a"] ".tif" false) [] 0 = Some (Err OverflowError).
Proof. vm_compute. auto. Qed.

(* When only some of the stacks have files there, these files are replaced. *)
Theorem C97_files_replaced_refuted :
  let d := ex_files ["a"; "b"] ".edf" false in
  let disk := map txt ["/data/out/a_1.edf"] in
  files_prepare 9 d disk 3 = Some (Ok (txt "/data/out", 1)) /\ In (filename d (txt "/data/out") 1 (txt "a") 1) disk.
Proof. vm_compute. auto. Qed.
Print Assumptions C97_files_replaced_refuted.
(* With another extension the files are looked for with that extension but written with .edf. *)
Theorem C97_files_extension_refuted :
  let d := ex_files ["a"] ".dat" false in
  let disk := map txt ["/data/out/a_1.edf"] in
  files_prepare 9 d disk 3 = Some (Ok (txt "/data/out", 1)) /\ In (filename d (txt "/data/out") 1 (txt "a") 1) disk.
Proof. vm_compute. auto. Qed.
Print Assumptions C97_files_extension_refuted.
(* Without any stack the search never ends. *)
Theorem C97_files_loop_refuted : forall d disk, names d = [] -> forall fuel k p, free_dir fuel d disk k p = None.
Proof. exact free_dir_loop. Qed.
Print Assumptions C97_files_loop_refuted.
