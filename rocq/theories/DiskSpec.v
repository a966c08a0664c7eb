(* Vocabulary for the statements about io/localfs.py: what is seen at each path of a disk. *)
From Verif Require Export DiskModel.
Local Open Scope nat_scope.

Inductive thing : Type := AFile (d : chars) | ADir | ALink (abs : bool) (t : list comp).
Definition thing_of (n : node) : thing := match n with File d => AFile d | Dir _ => ADir | Link a t => ALink a t end.
(* what is at a path, links not followed *)
Definition peek (root : node) (p : path) : option thing := match look root p with Some n => Some (thing_of n) | None => None end.
Definition same (a b : node) : Prop := forall q, peek a q = peek b q.
(* only empty directories were added *)
Definition grown (a b : node) : Prop := forall q, peek b q = peek a q \/ peek a q = None /\ peek b q = Some ADir.
(* no link on the way: all directories above exist *)
Definition plain (root : node) (p : path) : Prop := p <> [] /\ forall a b, p = a ++ b -> b <> [] -> peek root a = Some ADir.
Definition apart (p q : path) : Prop := below p q = None /\ below q p = None.
(* the disk on which what was at s is now at d, and nothing else differs *)
Definition moved (root root' : node) (s d : path) : Prop :=
  forall q, peek root' q = match below d q with
                           | Some r => peek root (s ++ r)
                           | None => match below s q with Some _ => None | None => peek root q end
                           end.
Definition removed (root root' : node) (p : path) : Prop :=
  forall q, peek root' q = match below p q with Some _ => None | None => peek root q end.
Definition copied (root root' : node) (s d : path) : Prop :=
  forall q, peek root' q = match below d q with Some r => peek root (s ++ r) | None => peek root q end.
(* a link at the end of a path whose directories exist *)
Definition link_at (root : node) (p : path) (abs : bool) (t : list comp) : Prop := plain root p /\ peek root p = Some (ALink abs t).
(* where a node is after what was at s went to d *)
Definition relocate (s d q : path) : path := match below s q with Some r => d ++ r | None => q end.
(* the place a node goes to: into an existing directory, unless it is renamed *)
Definition target (maxlinks : nat) (root : node) (src dest : path) (rename : bool) : path :=
  if isdir maxlinks root dest && negb rename then sub dest src else dest.
