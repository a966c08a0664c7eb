(* Model of src/spectrocrunch/utils/signalhandling.py:HandleTermination.
   Python delivers a pending signal between two steps of the main thread by calling the
   installed handler there; a handler can itself be interrupted.  The environment is a list
   with one entry for each possible delivery point, in the order in which these points are
   reached; an entry tells, for each place in the code, which signal (if any) arrives.
   Signals whose handler was not installed from Python (getsignal returns None) are not
   modelled. *)
From Verif Require Export Base.

Inductive sig : Type := SIGTERM | SIGINT | SIGHUP.
Definition sig_eqb (a b : sig) : bool :=
  match a, b with SIGTERM, SIGTERM | SIGINT, SIGINT | SIGHUP, SIGHUP => true | _, _ => false end.

(* what was installed before: the default action (ends the process), ignore, or a function
   which returns (None) or raises *)
Inductive disposition : Type := Default | Ignore | Callable (r : option exn).

(* where a signal is delivered *)
Inductive place : Type := InEnter | InSetup | InBody | InHandler | InTeardown | InRestore.

Inductive outcome : Type := Go | Raised (e : exn) | Killed.

Record params : Type := mkParams {
  p_sigs : list sig;                      (* the termination signals of the platform *)
  p_settable : sig -> bool;               (* signal.signal succeeds (main thread) *)
  p_orig : sig -> disposition;
  p_setup : option exn;                   (* how the set-up function ends *)
  p_teardown : nat -> option exn;         (* how the k-th call of the tear-down ends *)
  p_truthy : bool;                        (* the tear-down returns something true *)
  p_resend : bool }.

Record world : Type := mkWorld {
  w_new : sig -> bool;                    (* the object's own handler is installed *)
  w_old : option (list sig);              (* keys of self._oldhandlers, None: not yet assigned *)
  w_need : bool;                          (* self._needcleanup *)
  w_downs : nat;                          (* calls of the tear-down function *)
  w_ret : bool;                           (* result of the last _cleanup *)
  w_env : list (place -> option sig) }.

Definition set_new s b w := mkWorld (fun t => if sig_eqb s t then b else w_new w t)
                                    (w_old w) (w_need w) (w_downs w) (w_ret w) (w_env w).
Definition set_old o w := mkWorld (w_new w) o (w_need w) (w_downs w) (w_ret w) (w_env w).
Definition set_need b w := mkWorld (w_new w) (w_old w) b (w_downs w) (w_ret w) (w_env w).
Definition count_down w := mkWorld (w_new w) (w_old w) (w_need w) (S (w_downs w)) (w_ret w) (w_env w).
Definition set_ret b w := mkWorld (w_new w) (w_old w) (w_need w) (w_downs w) b (w_env w).
Definition set_env e w := mkWorld (w_new w) (w_old w) (w_need w) (w_downs w) (w_ret w) e.

Definition step : Type := world -> world * outcome.
Definition upd (f : world -> world) : step := fun w => (f w, Go).
Definition seqM (a b : step) : step := fun w =>
  let '(w, o) := a w in match o with Go => b w | _ => (w, o) end.
Definition raise_opt (o : option exn) : step := fun w =>
  (w, match o with Some e => Raised e | None => Go end).

Section Run.
Context (p : params).

Section Handlers.
(* delivery of the signals pending at a place *)
Context (poll : place -> step).

(* utils/signalhandling.py:46-48 restore_handlers *)
Fixpoint restore (l : list sig) : step :=
  match l with
  | [] => upd (fun w => w)
  | s :: l' => seqM (upd (set_new s false)) (seqM (poll InRestore) (restore l'))
  end.

(* the user's tear-down *)
Definition teardown : step := fun w =>
  seqM (upd count_down) (seqM (poll InTeardown) (raise_opt (p_teardown p (w_downs w)))) w.

(* 86-94 _cleanup *)
Definition cleanup : step := fun w =>
  if w_need w then
    seqM teardown
      (seqM (upd (set_ret (p_truthy p)))
        (seqM (fun w => match w_old w with
                        | Some l => restore l w
                        | None => (w, Raised AttributeError)     (* no attribute _oldhandlers *)
                        end)
          (upd (set_need false)))) w
  else (set_ret false w, Go).

(* 51-60 send_signals: a default or ignored disposition is not callable, the TypeError is
   swallowed, as is any other TypeError *)
Definition send (s : sig) : step := fun w =>
  match w_old w with
  | Some l =>
      if existsb (sig_eqb s) l then
        match p_orig p s with
        | Callable (Some TypeError) => (w, Go)
        | Callable (Some e) => (w, Raised e)
        | _ => (w, Go)
        end
      else (w, Go)
  | None => (w, Raised AttributeError)
  end.

(* 96-114 _newhandler *)
Definition newhandler (s : sig) : step :=
  seqM (poll InHandler) (seqM cleanup (if p_resend p then send s else upd (fun w => w))).

Definition deliver (s : sig) : step := fun w =>
  if w_new w s then newhandler s w
  else match p_orig p s with
       | Default => (w, Killed)
       | Ignore => (w, Go)
       | Callable r => raise_opt r w
       end.
End Handlers.

Definition pop (at_ : place) (w : world) : option sig * world :=
  match w_env w with
  | [] => (None, w)
  | f :: r => (f at_, set_env r w)
  end.
(* n is at least the number of remaining delivery points, so that it is not exhausted *)
Fixpoint poll_n (n : nat) (at_ : place) : step := fun w =>
  match pop at_ w with
  | (None, w') => (w', Go)
  | (Some s, w') =>
      match n with
      | O => (w', Go)
      | S n => seqM (deliver (poll_n n) s) (poll_n n at_) w'
      end
  end.
Definition poll (at_ : place) : step := fun w => poll_n (length (w_env w)) at_ w.

(* 32-43 replace_handlers, with the dictionary built so far *)
Fixpoint replace (l : list sig) (acc : list sig) : step :=
  match l with
  | [] => upd (set_old (Some (rev acc)))               (* the assignment in __enter__ *)
  | s :: l' =>
      if p_settable p s then seqM (upd (set_new s true)) (seqM (poll InEnter) (replace l' (s :: acc)))
      else seqM (poll InEnter) (replace l' acc)
  end.
(* 79-84 __enter__ *)
Definition enter : step :=
  seqM (upd (set_need true))
    (seqM (poll InEnter)
      (seqM (replace (p_sigs p) []) (seqM (poll InSetup) (raise_opt (p_setup p))))).

(* the protected block: n delivery points and then its own end *)
Fixpoint body (n : nat) (r : option exn) : step :=
  match n with
  | O => raise_opt r
  | S n => seqM (poll InBody) (body n r)
  end.

(* with HandleTermination(...): body, including __exit__ (116-118): a true result of
   _cleanup suppresses the exception of the body *)
Definition run (n : nat) (r : option exn) : step := fun w =>
  let '(w, o) := enter w in
  match o with
  | Go =>
      let '(w, o) := body n r w in
      match o with
      | Killed => (w, Killed)
      | _ =>
          let '(w, o') := cleanup poll w in
          match o' with
          | Go => match o with
                  | Raised e => (w, if w_ret w then Go else Raised e)
                  | _ => (w, Go)
                  end
          | _ => (w, o')
          end
      end
  | _ => (w, o)
  end.
(* before: original handlers, nothing done *)
Definition start (env : list (place -> option sig)) : world :=
  mkWorld (fun _ => false) None false 0 false env.
End Run.
