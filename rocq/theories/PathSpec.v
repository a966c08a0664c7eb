(* Specifications of paths: a list of names under a root of one or two slashes. *)
From Verif Require Import PathModel.
Local Open Scope nat_scope.

(* a name: not empty, no slash, neither "." nor ".." *)
Definition proper (w : chars) : Prop := w <> [] /\ ~ In slash w /\ w <> curdir /\ w <> pardir.
(* the absolute path of names under a root of k slashes *)
Fixpoint tail_of (l : list chars) : chars :=
  match l with [] => [] | w :: l' => slash :: w ++ tail_of l' end.
Definition abs_path (k : nat) (l : list chars) : chars :=
  match l with
  | [] => repeat slash k
  | w :: l' => repeat slash k ++ w ++ tail_of l'
  end.
Definition good (k : nat) (l : list chars) : Prop := (k = 1 \/ k = 2) /\ Forall proper l.
(* the path is absolute and cannot be simplified *)
Definition canonical (p : chars) : Prop := exists k l, good k l /\ p = abs_path k l.

(* following a list of steps from a directory: a name goes down, ".." goes up (not above the
   root), "" and "." stay *)
Inductive walk : list chars -> list chars -> list chars -> Prop :=
| walk_done : forall d, walk d [] d
| walk_stay : forall d w ws d', w = [] \/ w = curdir -> walk d ws d' -> walk d (w :: ws) d'
| walk_up : forall d x ws d', walk d ws d' -> walk (d ++ [x]) (pardir :: ws) d'
| walk_top : forall ws d', walk [] ws d' -> walk [] (pardir :: ws) d'
| walk_down : forall d w ws d', proper w -> walk (d ++ [w]) ws d' -> walk d (w :: ws) d'.

(* a name written by its pieces between slashes *)
Inductive pieces : chars -> list chars -> Prop :=
| pieces_one : forall w, ~ In slash w -> pieces w [w]
| pieces_more : forall w s l, ~ In slash w -> pieces s l -> pieces (w ++ slash :: s) (w :: l).

Definition prefix_of {A} (a b : list A) : Prop := exists c, b = a ++ c.
(* the longest list which begins both *)
Definition longest_common (a b c : list chars) : Prop :=
  prefix_of c a /\ prefix_of c b /\
  forall d, prefix_of d a -> prefix_of d b -> prefix_of d c.

(* a file name with an extension and no colon *)
Definition has_extension (s : chars) : Prop :=
  ~ In colon s /\ exists a e, s = a ++ dot :: e /\ e <> [] /\ ~ In slash e.

(* the text begins with exactly n slashes *)
Definition slashes (s : chars) (n : nat) : Prop :=
  exists t, s = repeat slash n ++ t /\ forall u, t <> slash :: u.
(* POSIX keeps exactly two leading slashes apart *)
Definition root (n : nat) : nat := if Nat.eqb n 2 then 2 else 1.

(* an HDF5 path whose file and node are absolute and cannot be simplified *)
Definition h5_canonical (o : h5) : Prop := canonical (hdev o) /\ canonical (hpath o).
