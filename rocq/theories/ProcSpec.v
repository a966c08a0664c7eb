(* Vocabulary of the properties of finding and creating processes. *)
From Verif Require Export NameSpec ProcModel.
From Coq Require Export Sorting.Sorted.

Definition keys_sorted {A} (l : list (chars * A)) : Prop :=
  StronglySorted (fun a b => chars_ltb a b = true) (map fst l).

(* what an HDF5 file guarantees (members in the order of their different names), and no
   process outside an NXentry *)
Definition wf (f : file) : Prop :=
  keys_sorted f /\
  forall e g, In (e, g) f ->
    keys_sorted (g_kids g) /\
    (g_cls g <> CEntry -> forall n p, ~ In (n, Proc p) (g_kids g)).

(* the member n of the group e *)
Definition member (f : file) (e n : chars) (x : node) : Prop :=
  exists g, In (e, g) f /\ In (n, x) (g_kids g).
Definition unused (f : file) (e n : chars) : Prop := forall x, ~ member f e n x.
Definition entry (f : file) (e : chars) : Prop := exists g, In (e, g) f /\ g_cls g = CEntry.

(* the name of the request or one of its numbered variants, apart from a final newline *)
Definition good_match (name s : chars) : Prop :=
  name = [] \/ same_name name s \/ exists t, s = t ++ [newline] /\ same_name name t.

Definition good_name (s : chars) : Prop := s <> [] /\ no_braces s.

(* storing the parameters does not change their hash *)
Definition stable (md5 : string -> string) (rt : pyval -> pyval) (v : pyval) : Prop :=
  calchash md5 0 (rt v) = calchash md5 0 v.

(* looked for by a request: below the entry of the request, or everywhere *)
Definition in_scope (f : file) (here : option chars) (all : bool) (e : chars) : Prop :=
  entry f e /\
  (all = false -> forall h, here = Some h -> entry f h -> e = h).

(* all existing members stay as they are *)
Definition extends (f f' : file) : Prop := forall e n x, member f e n x -> member f' e n x.

(* an entry all of whose requests stay inside it *)
Definition local_request (e : chars) (md5 : string -> string) (rt : pyval -> pyval) (r : request) : Prop :=
  r_here r = Some e /\ r_all r = false /\ good_name (r_name r) /\ ~ In newline (r_name r) /\
  stable md5 rt (r_params r).
