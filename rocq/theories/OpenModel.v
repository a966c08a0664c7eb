(* Model of src/spectrocrunch/io/fs.py:79-146 (File.open, File._closectx, onclose): re-entrant
   opening of one file object and the calls that wait until it is closed.
   The code that uses the file is a program; opening and closing the real file (_fopen of the
   subclass) succeed or raise as given with each context. Handles are numbered in the order of
   opening; they count as true (onclose tests "if self._handle", open "is None"). Threads and
   generators that are suspended inside a context are left out. *)
From Verif Require Export Base.

(* what the real opening and closing do, and the parameters (the mode) of this context *)
Record attempt : Type := mkAttempt { at_params : nat; at_enter : option exn; at_exit : option exn }.

Inductive prog : Type :=
  | Pass
  | Use                                    (* uses the handle of the innermost context *)
  | Raise (x : exn)
  | Seq (p q : prog)
  | Try (p : prog)                         (* try: p, except Exception: pass *)
  | Open (a : attempt) (p : prog)          (* with f.open(...): p *)
  | Call (c : nat) (p : prog).             (* f.method() decorated with onclose; p is its body *)

Inductive event : Type :=
  | Opened (h : nat) (params : nat)
  | Used (h : nat)
  | Closed (h : nat)
  | Ran (c : nat).

Record fstate : Type := mkState { s_handle : option nat; s_pending : list (nat * prog); s_next : nat }.
Definition outcome : Type := option exn.
Definition exn_or (x y : outcome) : outcome := match x with Some _ => x | None => y end.

(* 115-123: the waiting calls, one after the other until one raises *)
Fixpoint run_calls (run : prog -> fstate -> option (fstate * list event * outcome)) (l : list (nat * prog)) (s : fstate)
  : option (fstate * list event * outcome) :=
  match l with
  | [] => Some (s, [], None)
  | (c, p) :: l' =>
      match run p s with
      | None => None
      | Some (s1, t1, Some x) => Some (s1, Ran c :: t1, Some x)
      | Some (s1, t1, None) =>
          match run_calls run l' s1 with
          | None => None
          | Some (s2, t2, r) => Some (s2, Ran c :: t1 ++ t2, r)
          end
      end
  end.

Fixpoint exec (fuel : nat) (env : option nat) (p : prog) (s : fstate) : option (fstate * list event * outcome) :=
  match fuel with
  | O => None
  | S n =>
      match p with
      | Pass => Some (s, [], None)
      | Use => match env with Some h => Some (s, [Used h], None) | None => Some (s, [], Some NameError) end
      | Raise x => Some (s, [], Some x)
      | Seq p q =>
          match exec n env p s with
          | None => None
          | Some (s1, t1, Some x) => Some (s1, t1, Some x)
          | Some (s1, t1, None) =>
              match exec n env q s1 with
              | None => None
              | Some (s2, t2, r) => Some (s2, t1 ++ t2, r)
              end
          end
      | Try p =>
          match exec n env p s with
          | None => None
          | Some (s1, t1, _) => Some (s1, t1, None)
          end
      | Call c p =>                        (* 137-146 *)
          match s_handle s with
          | Some _ => Some (mkState (s_handle s) (s_pending s ++ [(c, p)]) (s_next s), [], None)
          | None =>
              match exec n None p s with
              | None => None
              | Some (s1, t1, r) => Some (s1, Ran c :: t1, r)
              end
          end
      | Open a p =>                        (* 87-99 *)
          match s_handle s with
          | Some h => exec n (Some h) p s
          | None =>
              let body :=
                match at_enter a with
                | Some x => Some (s, [], Some x)
                | None =>
                    let h := s_next s in
                    match exec n (Some h) p (mkState (Some h) (s_pending s) (S h)) with
                    | None => None
                    | Some (s1, t1, r) =>
                        Some (mkState None (s_pending s1) (s_next s1),
                              Opened h (at_params a) :: t1 ++ [Closed h], exn_or (at_exit a) r)
                    end
                end in
              match body with
              | None => None
              | Some (s1, t1, r) =>
                  match run_calls (exec n None) (s_pending s1) (mkState (s_handle s1) [] (s_next s1)) with
                  | None => None
                  | Some (s2, t2, r2) => Some (s2, t1 ++ t2, exn_or r2 r)
                  end
              end
          end
      end
  end.

(* 82-85 *)
Definition new_file : fstate := mkState None [] 0.
