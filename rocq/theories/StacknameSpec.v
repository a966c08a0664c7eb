(* Vocabulary for where aligned stacks are saved. *)
From Coq Require Import String.
From Verif Require Export StacknameModel.
Local Open Scope nat_scope.

Definition prefix (p q : list chars) : Prop := exists r, q = p ++ r.
Definition is_data (o : object) : Prop := exists s t, o = Data s t.
(* something exists at this path: the root, an object or a group above it *)
Definition sits (h : handle) (p : list chars) : Prop := p = [] \/ exists q o, In (q, o) (content h) /\ prefix p q.
(* the path of a dataset at attempt k: at the root, then in /entry1, /entry2, ... *)
Definition place (d : dest) (k : Z) (name : chars) : list chars :=
  (if (k =? 0)%Z then [] else [txt "entry" ++ dec k]) ++ components (name ++ ext d).
(* datasets can be created at these paths, in this order *)
Definition room (h : handle) (ps : list (list chars)) : Prop :=
  (forall p, In p ps -> ~ sits h p /\ forall q o, In (q, o) (content h) -> is_data o -> ~ prefix q p) /\
  ForallOrdPairs (fun p q => ~ prefix p q /\ ~ prefix q p) ps.
(* the order of file names *)
Definition before (a b : chars) : Prop :=
  exists p c d a' b', a = p ++ c :: a' /\ b = p ++ d :: b' /\ nat_of_ascii c < nat_of_ascii d.
(* as strip(r"\/") leaves it *)
Definition stripped (t : chars) : Prop :=
  (forall c r, t = c :: r -> c <> slash /\ c <> backslash) /\ (forall c r, t = r ++ [c] -> c <> slash /\ c <> backslash).
