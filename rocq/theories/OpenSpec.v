(* Vocabulary of the property of re-entrant opening. *)
From Verif Require Export OpenModel.

(* what a piece of code does inside a context: the calls it makes, whether it raises, how often it uses the
   file. Contexts inside it play no part. *)
Fixpoint inside (p : prog) : list (nat * prog) * nat * outcome :=
  match p with
  | Pass => ([], 0%nat, None)
  | Use => ([], 1%nat, None)
  | Raise x => ([], 0%nat, Some x)
  | Seq p q => let '(c1, u1, r1) := inside p in
               match r1 with
               | Some _ => (c1, u1, r1)
               | None => let '(c2, u2, r2) := inside q in (c1 ++ c2, (u1 + u2)%nat, r2)
               end
  | Try p => let '(c, u, _) := inside p in (c, u, None)
  | Open _ p => inside p
  | Call c p => ([(c, p)], 0%nat, None)
  end.
Definition calls p := fst (fst (inside p)).
Definition uses p := snd (fst (inside p)).
Definition raises p := snd (inside p).

(* a proper history of one file: never open twice, used only when open, closed as often as opened,
   the waiting calls run when it is closed. cur: the open handle. *)
Fixpoint proper_history (cur : option nat) (next : nat) (t : list event) : Prop :=
  match t with
  | [] => cur = None
  | Opened h _ :: t' => cur = None /\ h = next /\ proper_history (Some h) (S next) t'
  | Used h :: t' => cur = Some h /\ proper_history cur next t'
  | Closed h :: t' => cur = Some h /\ proper_history None next t'
  | Ran _ :: t' => cur = None /\ proper_history cur next t'
  end.
Fixpoint count_opened (t : list event) : nat :=
  match t with [] => 0 | Opened _ _ :: t' => S (count_opened t') | _ :: t' => count_opened t' end.

(* events of calls run one after the other: each one is marked once, in order, up to the first that raises *)
Inductive runs_in_order : list (nat * prog) -> list event -> outcome -> Prop :=
  | ran_none : runs_in_order [] [] None
  | ran_more c p l t1 t2 r n s s' : exec n None p s = Some (s', t1, None) -> runs_in_order l t2 r ->
      runs_in_order ((c, p) :: l) (Ran c :: t1 ++ t2) r
  | ran_raise c p l t1 x n s s' : exec n None p s = Some (s', t1, Some x) ->
      runs_in_order ((c, p) :: l) (Ran c :: t1) (Some x).

Fixpoint size (p : prog) : nat :=
  match p with
  | Pass | Use | Raise _ => 1
  | Seq p q => S (size p + size q)
  | Try p | Open _ p | Call _ p => S (size p)
  end.
