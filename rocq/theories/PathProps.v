(* C48: splitting a path into device, parent and name and joining again gives the path; the
   common part of two paths is a prefix of both; the relative path from one to the other,
   resolved against the first, gives the second. *)
From Coq Require Import String.
From Verif Require Import Base Text PathModel PathSpec PathProofs PathDevProofs PathFacts.
Close Scope string_scope.
Local Open Scope nat_scope.
Local Notation s := list_ascii_of_string.

(* every path object holds the names reached by walking from the root over the pieces of what
   it was given, after those of the current directory if that was relative *)
Theorem C48_norm : forall cwd m lc v n lv,
  slashes cwd m -> 0 < m -> pieces cwd lc -> slashes v n -> pieces v lv ->
  (0 < n -> exists d, walk [] lv d /\ Forall proper d /\ norm cwd v = abs_path (root n) d) /\
  (n = 0 -> exists d, walk [] (lc ++ lv) d /\ Forall proper d /\ norm cwd v = abs_path (root m) d).
Proof. exact norm_fact. Qed.
Print Assumptions C48_norm.
(* walking reaches one place only *)
Theorem C48_walk_unique : forall d ws a b, Forall proper d -> walk d ws a -> walk d ws b -> a = b.
Proof. exact walk_unique. Qed.
Print Assumptions C48_walk_unique.
Example norm_case : norm (s "/home/me"%string) (s "a/./b//../../../c/"%string) = s "/home/c"%string.
Proof. reflexivity. Qed.
Example norm_case_above : norm (s "/home/me"%string) (s "/a/../../../b"%string) = s "/b"%string.
Proof. reflexivity. Qed.
Example norm_case_slashes :
  norm (s "/"%string) (s "///a"%string) = s "/a"%string /\ norm (s "/"%string) (s "//a"%string) = s "//a"%string.
Proof. split; reflexivity. Qed.

Theorem C48_canonical : forall cwd v, isabs cwd = true -> canonical (norm cwd v).
Proof. exact norm_canonical_result. Qed.
Print Assumptions C48_canonical.
Theorem C48_fixed : forall cwd p, canonical p -> norm cwd p = p.
Proof. exact norm_fixed. Qed.
Print Assumptions C48_fixed.

(* path[v] walks from the names of the path; an absolute v replaces it *)
Theorem C48_child : forall cwd k l v lv, good k l -> slashes v 0 -> pieces v lv ->
  exists d, walk l lv d /\ Forall proper d /\ child cwd (abs_path k l) v = abs_path k d.
Proof. exact child_fact. Qed.
Print Assumptions C48_child.
Theorem C48_child_absolute : forall cwd p v n, slashes v n -> 0 < n -> child cwd p v = norm cwd v.
Proof. exact child_abs_fact. Qed.
Print Assumptions C48_child_absolute.
Example child_case : child (s "/"%string) (s "/a/b"%string) (s "../c/d"%string) = s "/a/c/d"%string.
Proof. reflexivity. Qed.

(* parent and name are the two parts, and joining them gives the path, also for the root *)
Theorem C48_parts : forall cwd k l w, good k (l ++ [w]) ->
  parent cwd (abs_path k (l ++ [w])) = abs_path k l /\ name (abs_path k (l ++ [w])) = w /\
  child cwd (abs_path k l) w = abs_path k (l ++ [w]).
Proof. exact parts_fact. Qed.
Print Assumptions C48_parts.
Theorem C48_root : forall cwd k, k = 1 \/ k = 2 ->
  parent cwd (repeat slash k) = repeat slash k /\ name (repeat slash k) = [].
Proof. exact root_fact. Qed.
Print Assumptions C48_root.
Theorem C48_split_join : forall cwd p, canonical p -> child cwd (parent cwd p) (name p) = p.
Proof. exact split_join. Qed.
Print Assumptions C48_split_join.
Theorem C48_sibling : forall cwd k l w v, good k (l ++ [w]) -> proper v ->
  sibling cwd (abs_path k (l ++ [w])) v = abs_path k (l ++ [v]).
Proof. exact sibling_fact. Qed.
Print Assumptions C48_sibling.
Example parts_case :
  parent (s "/"%string) (s "/a/b.h5"%string) = s "/a"%string /\ name (s "/a/b.h5"%string) = s "b.h5"%string /\
  sibling (s "/"%string) (s "/a/b.h5"%string) (s "c"%string) = s "/a/c"%string.
Proof. split; [|split]; reflexivity. Qed.
Example good_case : good 1 [s "a"%string; s "b.h5"%string] /\
  abs_path 1 [s "a"%string; s "b.h5"%string] = s "/a/b.h5"%string.
Proof.
  split; [|reflexivity]. split; [now left|].
  repeat constructor; try discriminate; intros H; cbn in H; intuition discriminate.
Qed.

(* all the directories above a path, and the path *)
Theorem C48_iterup : forall cwd k l n, good k l -> length l < n ->
  iterup cwd n (abs_path k l) = Some (rev (map (fun i => abs_path k (firstn i l)) (seq 0 (S (length l))))).
Proof. exact iterup_fact. Qed.
Print Assumptions C48_iterup.
(* the common part has the longest list of names which begins both *)
Theorem C48_common : forall cwd k a b n, good k a -> good k b -> length a < n -> length b < n ->
  exists c, longest_common a b c /\ common cwd n (abs_path k a) (abs_path k b) = Some (Some (abs_path k c)).
Proof. exact common_fact. Qed.
Print Assumptions C48_common.
(* no common part under the two different roots *)
Theorem C48_common_other : forall cwd k k' a b n, good k a -> good k' b -> k <> k' ->
  length a < n -> length b < n -> common cwd n (abs_path k a) (abs_path k' b) = Some None.
Proof. exact common_other. Qed.
Print Assumptions C48_common_other.
Example common_case :
  common (s "/"%string) 9 (s "/a/bc/d"%string) (s "/a/b"%string) = Some (Some (s "/a"%string)) /\
  iterup (s "/"%string) 9 (s "/a/b"%string) = Some [s "/a/b"%string; s "/a"%string; s "/"%string].
Proof. split; reflexivity. Qed.

(* the relative path, resolved against the first, gives the second *)
Theorem C48_relative : forall cwd k a b, good k a -> good k b ->
  child cwd (abs_path k a) (relpath cwd (abs_path k a) (abs_path k b)) = abs_path k b.
Proof. exact relpath_fact. Qed.
Print Assumptions C48_relative.
Theorem C48_relative_given : forall cwd p v, slashes v 0 -> relpath cwd p v = v.
Proof. exact relpath_given. Qed.
Print Assumptions C48_relative_given.
Example relative_case :
  relpath (s "/"%string) (s "/a/b/c"%string) (s "/a/d/e"%string) = s "../../d/e"%string /\
  relpath (s "/"%string) (s "/a"%string) (s "/a"%string) = s "."%string.
Proof. split; reflexivity. Qed.
(* not across the two roots *)
Theorem C48_relative_refuted : exists cwd p q, canonical p /\ canonical q /\
  child cwd p (relpath cwd p q) <> q.
Proof.
  exists (s "/"%string), (s "//a"%string), (s "/b"%string).
  split; [|split].
  - exists 2, [s "a"%string]. split; [|reflexivity]. split; [now right|].
    repeat constructor; try discriminate; intros H; cbn in H; intuition discriminate.
  - exists 1, [s "b"%string]. split; [|reflexivity]. split; [now left|].
    repeat constructor; try discriminate; intros H; cbn in H; intuition discriminate.
  - discriminate.
Qed.
Print Assumptions C48_relative_refuted.

(* ---- HDF5 paths ---- *)
(* the location splits into file and node when the file is known, whatever their names *)
Theorem C48_device_known : forall dev p, split_path (location dev p) (Some dev) = (dev, p).
Proof. exact split_path_own. Qed.
Print Assumptions C48_device_known.
(* and when it is not, for a file name with an extension *)
Theorem C48_device_extension : forall dev p, has_extension dev -> isabs p = true ->
  split_path (location dev p) None = (dev, p).
Proof. exact split_path_ext. Qed.
Print Assumptions C48_device_extension.
Theorem C48_device_local : forall dev p, ~ In colon p -> ~ prefix_of dev p ->
  split_path p (Some dev) = (dev, p).
Proof. exact split_path_local. Qed.
Print Assumptions C48_device_local.
Example device_case :
  split_path (s "/tmp.d/test.v1.h5::/entry/a.b::name"%string) None =
  (s "/tmp.d/test.v1.h5"%string, s "/entry/a.b::name"%string).
Proof. reflexivity. Qed.
Theorem C48_detach : forall cwd o, h5_canonical o -> has_extension (hdev o) -> hdetach cwd o = Ok o.
Proof. exact hdetach_same. Qed.
Print Assumptions C48_detach.
(* nodes are reached as local paths are, when the node's path has no colon and does not begin
   with the path of the file *)
Theorem C48_node_child : forall cwd o v, h5_canonical o -> ~ In colon (hpath o) -> ~ In colon v ->
  ~ prefix_of (hdev o) (join2 (hpath o) v) ->
  hchild cwd o v = Ok (mkH5 (hdev o) (child cwd (hpath o) v)).
Proof. exact hchild_child. Qed.
Print Assumptions C48_node_child.
Example node_case :
  hchild (s "/"%string) (mkH5 (s "/tmp/test.h5"%string) (s "/entry/sub"%string)) (s "../x"%string)
  = Ok (mkH5 (s "/tmp/test.h5"%string) (s "/entry/x"%string)).
Proof. reflexivity. Qed.
Theorem C48_node_sibling : forall cwd o v,
  h5_canonical o -> ~ In colon (hpath o) -> proper v -> ~ In colon v ->
  ~ prefix_of (hdev o) (join2 (hpath o) pardir) ->
  ~ prefix_of (hdev o) (join2 (parent cwd (hpath o)) v) ->
  hsibling cwd o v = Ok (mkH5 (hdev o) (sibling cwd (hpath o) v)).
Proof. exact hsibling_fact. Qed.
Print Assumptions C48_node_sibling.
Example node_sibling_case :
  hsibling (s "/"%string) (mkH5 (s "/tmp/test.h5"%string) (s "/entry/sub"%string)) (s "x"%string)
  = Ok (mkH5 (s "/tmp/test.h5"%string) (s "/entry/x"%string)).
Proof. reflexivity. Qed.
(* a file without extension is not recognised in its own location *)
Theorem C48_detach_refuted : exists cwd o,
  o = mkH5 (s "/tmp/test"%string) (s "/entry"%string) /\
  hdetach cwd o = Ok (mkH5 (s "/tmp/test::/entry"%string) (s "/"%string)).
Proof. exists (s "/"%string). eexists. split; reflexivity. Qed.
Print Assumptions C48_detach_refuted.
(* a node name with the separator after a dot leads to another file *)
Theorem C48_node_child_refuted : exists cwd o v, proper v /\
  o = mkH5 (s "/tmp/test.h5"%string) (s "/entry"%string) /\
  hchild cwd o v = Ok (mkH5 (s "/entry/x.y"%string) (s "/z"%string)).
Proof.
  exists (s "/"%string). eexists. exists (s "x.y::z"%string). split; [|split; reflexivity].
  repeat split; try discriminate. intros H; cbn in H; intuition discriminate.
Qed.
Print Assumptions C48_node_child_refuted.
(* the parent of a node whose path begins with the path of the file *)
Theorem C48_node_parent_refuted : exists cwd o,
  o = mkH5 (s "/data"%string) (s "/data/x"%string) /\
  hparent cwd o = Ok (mkH5 (s "/data"%string) (s "/"%string)).
Proof. exists (s "/"%string). eexists. split; reflexivity. Qed.
Print Assumptions C48_node_parent_refuted.
(* the location of a node in a file whose name extends the name of this one *)
Theorem C48_factory_refuted : exists cwd o,
  o = mkH5 (s "/tmp/test.h5"%string) (s "/"%string) /\
  hfactory cwd o (s "/tmp/test.h5.bak::/entry"%string) = Ok (mkH5 (s "/home/.bak"%string) (s "/entry"%string)).
Proof. exists (s "/home"%string). eexists. split; reflexivity. Qed.
Print Assumptions C48_factory_refuted.
(* the empty path without a file is refused *)
Theorem C48_no_device : forall cwd, new_h5 cwd [] None = Err ValueError.
Proof. reflexivity. Qed.
Print Assumptions C48_no_device.
