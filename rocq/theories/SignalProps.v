(* C49: clean-up on termination. *)
From Verif Require Import SignalSpec SignalProofs.

(* Signals, however many, arrive only while the block runs, and set-up and tear-down do not
   raise: the tear-down runs once and the original handlers are back, however the block
   ends.  A process killed by a signal that is not taken over is excluded. *)
Theorem C49_once_partial : forall p env n r, well_behaved p -> only_in_body env ->
  let '(w, o) := run p n r (start env) in
  (o <> Killed \/ (forall s, In s (p_sigs p) /\ p_settable p s = true)) ->
  w_downs w = 1%nat /\ restored w.
Proof. exact run_once. Qed.
Print Assumptions C49_once_partial.

(* Python's usual handlers on Linux; a tear-down that handles the exception *)
Definition usual (setup : option exn) (td : nat -> option exn) : params :=
  mkParams [SIGTERM; SIGINT; SIGHUP] (fun _ => true)
    (fun s => match s with SIGINT => Callable (Some Interrupt) | _ => Default end)
    setup td true true.
Definition arrives (a : place) (s : sig) : place -> option sig := fun b =>
  match a, b with
  | InEnter, InEnter | InSetup, InSetup | InBody, InBody
  | InHandler, InHandler | InTeardown, InTeardown | InRestore, InRestore => Some s
  | _, _ => None
  end.

(* three signals during the block: interrupt, whose original handler raises *)
Example C49_once_example :
  let env := repeat (arrives InBody SIGHUP) 5 ++ [arrives InBody SIGTERM] ++ repeat (fun _ => None) 5 ++
             [arrives InBody SIGINT] in
  well_behaved (usual None (fun _ => None)) /\ only_in_body env /\
  snd (run (usual None (fun _ => None)) 3 None (start env)) = Raised Interrupt.
Proof.
  split; [split; reflexivity|]. split; [|reflexivity].
  repeat constructor; intros [] H; try reflexivity; congruence.
Qed.

(* Signals anywhere after entering, even during the tear-down, and original handlers that do
   not raise: the tear-down runs at least once and the handlers are restored. *)
Theorem C49_at_least_once_partial : forall p env n r, well_behaved p -> quiet_entry env ->
  (forall s e, p_orig p s <> Callable (Some e)) ->
  let '(w, o) := run p n r (start env) in
  o <> Killed -> (1 <= w_downs w)%nat /\ restored w.
Proof. exact run_at_least. Qed.
Print Assumptions C49_at_least_once_partial.
Example C49_at_least_once_example :
  let p := mkParams [SIGTERM; SIGHUP] (fun _ => true) (fun _ => Ignore) None (fun _ => None) true true in
  let env := repeat (arrives InTeardown SIGTERM) 9 ++ repeat (arrives InRestore SIGHUP) 9 in
  well_behaved p /\ quiet_entry env /\ (forall s e, p_orig p s <> Callable (Some e)) /\
  snd (run p 1 None (start env)) = Go /\ w_downs (fst (run p 1 None (start env))) = 6%nat.
Proof.
  split; [split; reflexivity|]. split; [repeat constructor|]. split; [discriminate|].
  split; vm_compute; reflexivity.
Qed.

Theorem C49_suppress_partial : forall p env n r, well_behaved p -> no_signals env ->
  exists w, run p n r (start env) =
    (w, match r with Some e => if p_truthy p then Go else Raised e | None => Go end).
Proof. exact run_no_signals. Qed.
Print Assumptions C49_suppress_partial.

(* The handler: tear-down and restored handlers, and then, when asked for, the original handler
   with its exception (a TypeError of the original handler is swallowed). *)
Theorem C49_handler_partial : forall p s l w, (forall k, p_teardown p k = None) ->
  only_in_body (w_env w) -> w_need w = true -> w_old w = Some l -> In s l ->
  exists w', newhandler p (poll p) s w =
      (w', match p_resend p, p_orig p s with
           | true, Callable (Some TypeError) => Go
           | true, Callable (Some e) => Raised e
           | _, _ => Go
           end) /\
    w_downs w' = S (w_downs w) /\ w_need w' = false /\ forall s, In s l -> w_new w' s = false.
Proof. exact newhandler_quiet. Qed.
Print Assumptions C49_handler_partial.
(* an interrupt while the block runs; the tear-down does not handle exceptions *)
Example C49_handler_example :
  let p := mkParams [SIGTERM; SIGINT] (fun _ => true) (fun s => match s with SIGINT => Callable (Some Interrupt) | _ => Default end)
             None (fun _ => None) false true in
  let r := run p 2 None (start (repeat (fun _ => None) 4 ++ [arrives InBody SIGINT])) in
  snd r = Raised Interrupt /\ w_downs (fst r) = 1%nat /\ w_new (fst r) SIGINT = false.
Proof. split; [vm_compute; reflexivity|split; vm_compute; reflexivity]. Qed.

(* a set-up that raises: no tear-down, and the handlers stay replaced *)
Theorem C49_setup_refuted : forall p env n r e, p_setup p = Some e -> only_in_body env ->
  exists w, run p n r (start env) = (w, Raised e) /\ w_downs w = 0%nat /\
    forall s, w_new w s = existsb (sig_eqb s) (filter (p_settable p) (p_sigs p)).
Proof. exact setup_fails. Qed.
Print Assumptions C49_setup_refuted.
Example C49_setup_example : let r := run (usual (Some OSError) (fun _ => None)) 3 None (start []) in
  snd r = Raised OSError /\
  w_downs (fst r) = 0%nat /\ w_new (fst r) SIGTERM = true.
Proof. split; [vm_compute; reflexivity|split; vm_compute; reflexivity]. Qed.

(* a tear-down that raises: the handlers stay replaced *)
Theorem C49_teardown_refuted : forall p env n e,
  p_setup p = None -> p_teardown p 0 = Some e -> no_signals env ->
  exists w, run p n None (start env) = (w, Raised e) /\ w_downs w = 1%nat /\
    forall s, w_new w s = existsb (sig_eqb s) (filter (p_settable p) (p_sigs p)).
Proof. exact teardown_fails. Qed.
Print Assumptions C49_teardown_refuted.

(* a tear-down that raises while handling a signal: it runs a second time *)
Theorem C49_teardown_twice_refuted : let r := run (usual None (fun k => match k with O => Some OSError | _ => None end)) 1 None
      (start (repeat (arrives InBody SIGTERM) 6)) in
  snd r = Go /\ w_downs (fst r) = 2%nat /\ w_new (fst r) SIGTERM = false.
Proof. split; [vm_compute; reflexivity|split; vm_compute; reflexivity]. Qed.
Print Assumptions C49_teardown_twice_refuted.

(* a signal during the tear-down: it runs a second time *)
Theorem C49_nested_refuted : let r := run (usual None (fun _ => None)) 1 None (start (repeat (arrives InTeardown SIGTERM) 7)) in
  snd r = Go /\
  w_downs (fst r) = 2%nat.
Proof. split; vm_compute; reflexivity. Qed.
Print Assumptions C49_nested_refuted.

(* a signal while the handlers are being replaced: the tear-down runs although there was no
   set-up, _oldhandlers does not exist yet, and the handlers replaced so far stay *)
Theorem C49_enter_refuted : let r := run (usual None (fun _ => None)) 1 None (start ((fun _ => None) :: [arrives InEnter SIGTERM])) in
  snd r = Raised AttributeError /\ w_downs (fst r) = 1%nat /\ w_new (fst r) SIGTERM = true.
Proof. split; [vm_compute; reflexivity|split; vm_compute; reflexivity]. Qed.
Print Assumptions C49_enter_refuted.

(* an interrupt while the handlers are being restored leaves the others replaced *)
Theorem C49_restore_refuted : let r := run (usual None (fun _ => None)) 1 None
      (start (repeat (fun _ => None) 8 ++ [arrives InRestore SIGINT])) in
  snd r = Raised Interrupt /\ w_downs (fst r) = 1%nat /\ w_new (fst r) SIGHUP = true.
Proof. split; [vm_compute; reflexivity|split; vm_compute; reflexivity]. Qed.
Print Assumptions C49_restore_refuted.

(* re-sending a signal whose original disposition is the default does nothing: the block
   goes on after its tear-down and ends normally instead of being terminated *)
Theorem C49_resend_refuted : let r := run (usual None (fun _ => None)) 3 None (start (repeat (fun _ => None) 5 ++ [arrives InBody SIGTERM])) in
  snd r = Go /\
  w_downs (fst r) = 1%nat /\ w_env (fst r) = [].
Proof. split; [vm_compute; reflexivity|split; vm_compute; reflexivity]. Qed.
Print Assumptions C49_resend_refuted.
