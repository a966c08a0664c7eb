(* C45: finding or creating a process. *)
From Coq Require Import String.
From Verif Require Import HashSpec HashProofs ProcProofs ProcHistProofs ProcSpec.
Close Scope string_scope.

(* The same request returns the same process and leaves the file as it is; the name has no
   braces, and storing the parameters does not change their hash. *)
Theorem C45_twice_partial : forall md5 rt f here name deps params all noincr f' loc,
  wf f -> good_name name -> stable md5 rt params ->
  nxprocess md5 rt f here name deps params all noincr = Some (f', Ok loc) ->
  forall noincr', nxprocess md5 rt f' here name deps params all noincr' = Some (f', Ok loc).
Proof. exact nxprocess_again. Qed.
Print Assumptions C45_twice_partial.

(* The process has a matching name and the checksum of the request.  It existed already, or its
   name was not used before, nothing else changed, and no process that was looked at would do. *)
Theorem C45_result_partial : forall md5 rt f here name deps params all noincr f' e n,
  wf f -> good_name name -> stable md5 rt params ->
  nxprocess md5 rt f here name deps params all noincr = Some (f', Ok (e, n)) ->
  exists sum p, calc_checksum md5 deps params = Ok sum /\ member f' e n (Proc p) /\ entry f' e /\
    proc_checksum md5 p = Ok (Some sum) /\ good_match name n /\
    (f' = f \/ (unused f e n /\ p_deps p = deps /\
       (forall e' n' p', in_scope f here all e' -> member f e' n' (Proc p') ->
          proc_checksum md5 p' = Ok (Some sum) -> ~ good_match name n') /\
       forall e' n' x, member f' e' n' x <-> (e' = e /\ n' = n /\ x = Proc p) \/ member f e' n' x)).
Proof. exact nxprocess_result. Qed.
Print Assumptions C45_result_partial.

Definition toy_file : file :=
  [(txt "a", mkGroup CEntry [(txt "fit", Proc (mkProc (Some "x"%string) [] None [1; 2])); (txt "map", Other)]);
   (txt "b", mkGroup CNone [])].
Lemma toy_file_wf : wf toy_file.
Proof.
  split; [repeat constructor|]. intros e g [[= <- <-]|[[= <- <-]|[]]]; (split; [repeat constructor|]).
  - intros F. now destruct F.
  - intros _ n p [].
Qed.
Example C45_result_example :
  wf toy_file /\ good_name (txt "fit") /\ stable toy_md5 (fun v => v) PNone /\
  match nxprocess toy_md5 (fun v => v) toy_file (Some (txt "a")) (txt "fit") [] PNone true false with
  | Some (f', Ok (e, n)) => e = txt "a" /\ n = txt "fit.1" /\ f' <> toy_file /\
      nxprocess toy_md5 (fun v => v) f' None (txt "fit") [] PNone true false = Some (f', Ok (e, n))
  | _ => False
  end.
Proof.
  split; [exact toy_file_wf|]. split; [split; [discriminate|repeat constructor; discriminate]|].
  split; [reflexivity|]. vm_compute. repeat split; congruence.
Qed.

(* Whatever happens, all members of the file stay as they are. *)
Theorem C45_preserved : forall md5 rt f rs f', wf f -> Forall (fun r => good_name (r_name r)) rs ->
  serve_all md5 rt f rs = Some f' -> wf f' /\ extends f f'.
Proof. exact serve_all_extends. Qed.
Print Assumptions C45_preserved.

(* Requests are always served: the search for a free name ends. *)
Theorem C45_served_partial : forall md5 rt f here name deps params all noincr,
  wf f -> good_name name -> (forall e, entry f e -> no_braces e) ->
  exists f' r, nxprocess md5 rt f here name deps params all noincr = Some (f', r).
Proof. exact nxprocess_total. Qed.
Print Assumptions C45_served_partial.

(* Without an entry in the path a new entry is made. *)
Theorem C45_root_entry_partial : forall f f1 e, wf f -> (forall e, entry f e -> no_braces e) ->
  nxentry f None = Some (Ok (f1, e)) -> ~ entry f e /\ entry f1 e.
Proof. exact root_entry. Qed.
Print Assumptions C45_root_entry_partial.
Example C45_root_entry_example :
  match nxentry [(txt "s1", mkGroup CEntry []); (txt "s2", mkGroup CWrong [])] None with
  | Some (Ok (_, e)) => e = txt "s3"
  | _ => False
  end.
Proof. reflexivity. Qed.

(* A name in use: not a process, or no other name wanted. *)
Theorem C45_occupied : forall md5 rt f e name deps params all noincr sum x,
  wf f -> entry f e -> name <> [] -> calc_checksum md5 deps params = Ok sum -> member f e name x ->
  (noincr = true \/ x = Other) ->
  (forall e' n' p', in_scope f (Some e) all e' -> member f e' n' (Proc p') ->
     proc_checksum md5 p' = Ok (Some sum) -> ~ good_match name n') ->
  nxprocess md5 rt f (Some e) name deps params all noincr = Some (f, Err AlreadyExists).
Proof. exact nxprocess_occupied. Qed.
Print Assumptions C45_occupied.
Example C45_occupied_example :
  nxprocess toy_md5 (fun v => v) toy_file (Some (txt "a")) (txt "map") [] PNone true false
  = Some (toy_file, Err AlreadyExists) /\
  nxprocess toy_md5 (fun v => v) toy_file (Some (txt "a")) (txt "fit") [] PNone true true
  = Some (toy_file, Err AlreadyExists).
Proof. split; vm_compute; reflexivity. Qed.

(* Within one entry: after any sequence of requests the first request gets the same process. *)
Theorem C45_history_partial : forall md5 rt e f r f1 loc rs f2,
  wf f -> entry f e -> (forall n x, member f e n x -> ~ In newline n) ->
  local_request e md5 rt r -> Forall (local_request e md5 rt) rs ->
  serve md5 rt f r = Some (f1, Ok loc) -> serve_all md5 rt f1 rs = Some f2 ->
  serve md5 rt f2 r = Some (f2, Ok loc).
Proof. exact history. Qed.
Print Assumptions C45_history_partial.
Example C45_history_example :
  let rq n v := mkRequest (Some (txt "a")) (txt n) [] v false false in
  let one := PNum (NInt 1) in
  Forall (local_request (txt "a") toy_md5 (fun v => v))
    [rq "fit"%string PNone; rq "fit.7"%string PNone; rq "fit"%string one; rq "xas03"%string PNone] /\
  match serve toy_md5 (fun v => v) toy_file (rq "fit"%string PNone) with
  | Some (f1, Ok loc) =>
      match serve_all toy_md5 (fun v => v) f1 [rq "fit.7"%string PNone; rq "fit"%string one; rq "xas03"%string PNone] with
      | Some f2 => serve toy_md5 (fun v => v) f2 (rq "fit"%string PNone) = Some (f2, Ok loc) /\
                   loc = (txt "a", txt "fit.1") /\ length (all_processes f2) = 4%nat
      | None => False
      end
  | _ => False
  end.
Proof.
  cbv zeta. split.
  - assert (N : forall s, forallb (fun c => negb (ascii_eqb c newline)) s = true -> ~ In newline s).
    { intros s H I. rewrite forallb_forall in H. apply H in I. discriminate I. }
    repeat constructor; try discriminate; try (apply N; reflexivity); reflexivity.
  - vm_compute. repeat split; reflexivity.
Qed.

(* Across entries another process may be returned later. *)
Theorem C45_history_refuted :
  let rq e n := mkRequest (Some (txt e)) (txt n) [] PNone true false in
  let id := fun v : pyval => v in
  match serve toy_md5 id [] (rq "b" "fit")%string with
  | Some (f1, Ok loc1) =>
      match serve toy_md5 id f1 (rq "a" "fit.1")%string with
      | Some (f2, _) =>
          match serve toy_md5 id f2 (rq "b" "fit")%string with
          | Some (_, Ok loc2) => loc1 = (txt "b", txt "fit") /\ loc2 = (txt "a", txt "fit.1")
          | _ => False
          end
      | _ => False
      end
  | _ => False
  end.
Proof. vm_compute. split; reflexivity. Qed.
Print Assumptions C45_history_refuted.

(* When storing changes the hash of the parameters (as for a dictionary with integers as keys,
   which jsonpickle stores as texts), the second request creates another process. *)
Theorem C45_stored_parameters_refuted : forall md5 rt v h h',
  calchash md5 0 v = Ok h -> calchash md5 0 (rt v) = Ok h' -> h <> h' ->
  exists f1 f2,
    nxprocess md5 rt [] (Some (txt "entry")) (txt "fit") [] v true false = Some (f1, Ok (txt "entry", txt "fit")) /\
    nxprocess md5 rt f1 (Some (txt "entry")) (txt "fit") [] v true false = Some (f2, Ok (txt "entry", txt "fit.1")).
Proof. exact unstable_twice. Qed.
Print Assumptions C45_stored_parameters_refuted.
Example C45_stored_parameters_example :
  exists h h', calchash (fun s => s) 0 (PMap false [(PNum (NInt 1), PNone)]) = Ok h /\
               calchash (fun s => s) 0 (PMap false [(PStr false "1"%string, PNone)]) = Ok h' /\ h <> h'.
Proof. eexists. eexists. split; [vm_compute; reflexivity|]. split; [vm_compute; reflexivity|]. discriminate. Qed.

(* The checksum tells the dependencies and the hash of the parameters, when the digest does not
   collide on what is digested; a process with and one without dependencies may be confused. *)
Theorem C45_checksum_partial : forall md5 params h deps params' h' deps' s, hexlike md5 ->
  (deps <> [] /\ deps' <> [] \/ deps = [] /\ deps' = []) ->
  calchash md5 0 params = Ok h -> calchash md5 0 params' = Ok h' ->
  injective_on md5 (digest_inputs md5 (PSeq KTuple (map (PStr true) (deps ++ [h]))) ++
                    digest_inputs md5 (PSeq KTuple (map (PStr true) (deps' ++ [h'])))) ->
  calc_checksum md5 deps params = Ok s -> calc_checksum md5 deps' params' = Ok s -> deps = deps' /\ h = h'.
Proof. exact calc_checksum_inj. Qed.
Print Assumptions C45_checksum_partial.
Example C45_checksum_example :
  let md5 := toy_digest in let h := "0123"%string in
  hexlike md5 /\ calc_checksum md5 ["d1"; "d2"]%string PNone <> calc_checksum md5 ["d2"; "d1"]%string PNone /\
  injective_on md5 (digest_inputs md5 (PSeq KTuple (map (PStr true) ["d1"%string; h])) ++
                    digest_inputs md5 (PSeq KTuple (map (PStr true) ["d2"%string; h]))).
Proof.
  split; [exact toy_digest_hexlike|]. split; [vm_compute; congruence|].
  intros s t Hs Ht. vm_compute in Hs, Ht.
  repeat match goal with H : _ \/ _ |- _ => destruct H as [<-|H] | H : False |- _ => destruct H end;
    vm_compute; congruence.
Qed.
Theorem C45_checksum_refuted : forall md5 d params h, calchash md5 0 params = Ok h ->
  calc_checksum md5 [d] params = calc_checksum md5 [] (PMap false [(PStr true d, PStr true h)]).
Proof. exact checksum_collision. Qed.
Print Assumptions C45_checksum_refuted.
