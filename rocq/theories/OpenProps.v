(* C46: a file object that is opened in nested contexts opens the file once, closes it when the
   outermost context ends, and then makes the waiting calls once. *)
From Verif Require Import OpenSpec OpenProofs.

(* Whatever the program does (nesting, exceptions anywhere, errors of opening and closing, waiting
   calls that open the file again and make other calls wait): the file is never open twice, only
   used while open, always closed, calls are made while it is closed, and nothing stays behind. *)
Theorem C46_history : forall n p s, (size p <= n)%nat -> s_handle s = None -> s_pending s = [] ->
  exists s' t r, exec n None p s = Some (s', t, r) /\ s_handle s' = None /\ s_pending s' = [] /\
    proper_history None (s_next s) t.
Proof. exact exec_history. Qed.
Print Assumptions C46_history.
Theorem C46_fuel : forall n m env p s q, (n <= m)%nat -> exec n env p s = Some q -> exec m env p s = Some q.
Proof. exact exec_mono. Qed.
Print Assumptions C46_fuel.
(* as many closings as openings *)
Theorem C46_balanced : forall t cur n, proper_history cur n t ->
  (count_opened t + match cur with Some _ => 1 | None => 0 end
   = length (filter (fun e => match e with Closed _ => true | _ => false end) t))%nat.
Proof. exact history_counts. Qed.
Print Assumptions C46_balanced.

(* One outermost context: opened once with its own parameters, every use of the handle inside
   (whatever contexts the program nests) is a use of that one handle, then closed, then the waiting
   calls in the order they were asked for, up to the first that raises. *)
Theorem C46_outermost_partial : forall n a p s s' t r, (size p < n)%nat -> s_handle s = None -> s_pending s = [] ->
  exec n None (Open a p) s = Some (s', t, r) ->
  match at_enter a with
  | Some x => s' = s /\ t = [] /\ r = Some x
  | None =>
      exists t2 r2,
        t = Opened (s_next s) (at_params a) :: repeat (Used (s_next s)) (uses p) ++ Closed (s_next s) :: t2 /\
        runs_in_order (calls p) t2 r2 /\
        r = exn_or r2 (exn_or (at_exit a) (raises p))
  end.
Proof. exact exec_outer. Qed.
Print Assumptions C46_outermost_partial.
(* when none of them raises, each waiting call is made exactly once *)
Theorem C46_calls_partial : forall l t, runs_in_order l t None ->
  exists ts, length ts = length l /\ t = concat (map (fun '((c, _), u) => Ran c :: u) (combine l ts)).
Proof. exact order_all. Qed.
Print Assumptions C46_calls_partial.

Definition fine (params : nat) : attempt := mkAttempt params None None.
(* two nested contexts, one call waiting, an exception caught between, another escaping *)
Definition ex_nested : prog :=
  Open (fine 1) (Seq Use (Seq (Try (Open (fine 2) (Seq Use (Seq (Call 7 (Open (fine 3) Use)) (Raise ValueError)))))
    (Seq (Call 8 Pass) (Seq Use (Raise KeyError))))).
Example C46_history_example :
  exec 20 None ex_nested new_file
  = Some (mkState None [] 2,
          [Opened 0 1; Used 0; Used 0; Used 0; Closed 0; Ran 7; Opened 1 3; Used 1; Closed 1; Ran 8], Some KeyError) /\
  (size ex_nested <= 20)%nat.
Proof. split; [reflexivity|]. apply Nat.leb_le. reflexivity. Qed.
(* a waiting call that asks for another call while the file is open again *)
Example C46_again_example :
  exec 20 None (Open (fine 1) (Call 1 (Open (fine 2) (Seq Use (Call 2 Pass))))) new_file
  = Some (mkState None [] 2, [Opened 0 1; Closed 0; Ran 1; Opened 1 2; Used 1; Closed 1; Ran 2], None).
Proof. reflexivity. Qed.
Example C46_errors_example :
  exec 20 None (Open (mkAttempt 1 (Some MissingFile) None) Use) new_file = Some (new_file, [], Some MissingFile) /\
  exec 20 None (Open (mkAttempt 1 None (Some OSError)) (Seq (Call 4 Pass) (Raise KeyError))) new_file
  = Some (mkState None [] 1, [Opened 0 1; Closed 0; Ran 4], Some OSError).
Proof. now split. Qed.

(* A waiting call that raises makes the ones after it disappear: they are never made. *)
Theorem C46_lost_refuted : forall c c' x, 
  exec 6 None (Open (fine 0) (Seq (Call c (Raise x)) (Call c' Pass))) new_file
  = Some (mkState None [] 1, [Opened 0 0; Closed 0; Ran c], Some x).
Proof. exact (fun c c' x => eq_refl). Qed.
Print Assumptions C46_lost_refuted.
(* and it hides the exception of the context *)
Theorem C46_hidden_refuted : forall c x y,
  exec 6 None (Open (fine 0) (Seq (Call c (Raise x)) (Raise y))) new_file
  = Some (mkState None [] 1, [Opened 0 0; Closed 0; Ran c], Some x).
Proof. exact (fun c x y => eq_refl). Qed.
Print Assumptions C46_hidden_refuted.
(* The parameters of an inner context are not looked at: a context that asks for another mode gets
   the handle of the outermost one (and the inner attempt, which would fail, is not made). *)
Theorem C46_mode_refuted : forall m m' x,
  exec 6 None (Open (fine m) (Open (mkAttempt m' (Some x) None) Use)) new_file
  = Some (mkState None [] 1, [Opened 0 m; Used 0; Closed 0], None).
Proof. exact (fun m m' x => eq_refl). Qed.
Print Assumptions C46_mode_refuted.
