(* C93 to C95: inherited parameters (pipelines/parameters.py). *)
From Verif Require Import Base ParamModel ParamSpec ParamProofs ParamLinks ParamChains ParamData ParamState ParamMoves ParamChange ParamDemo.
Local Open Scope nat_scope.

(* ---- C93: the values of a node ---- *)

(* a key has the value of the node itself or else that of the nearest ancestor with that key *)
Theorem C93_get : forall h x k v, linked h -> tidy h -> x < length h -> (getitem h x k = Ok v <-> sees h x k v).
Proof. exact getitem_sees. Qed.
Print Assumptions C93_get.
Theorem C93_get_missing : forall h x k, linked h -> tidy h -> x < length h -> (getitem h x k = Err KeyError <-> forall v, ~ sees h x k v).
Proof. exact getitem_missing. Qed.
Print Assumptions C93_get_missing.
Example C93_get_ex : linked demo /\ tidy demo /\ plain demo /\ getitem demo 2 0 = Ok (Plain 7%Z) /\ getitem demo 1 0 = Ok (Plain 5%Z) /\ getitem demo 1 1 = Err KeyError.
Proof. exact (conj demo_linked (conj demo_tidy (conj demo_plain (conj eq_refl (conj eq_refl eq_refl))))). Qed.

(* the keys of a node are those with a value, once each, and those of the node itself first *)
Theorem C93_keys : forall h x, linked h -> tidy h -> x < length h -> exists ks, iter_keys h x true = Ok ks /\ NoDup ks /\
  (forall k, In k ks <-> exists v, sees h x k v) /\ (exists t, ks = keys (local_map h x) ++ t) /\ len h x = Ok (length ks).
Proof. exact iter_keys_spec. Qed.
Print Assumptions C93_keys.
Theorem C93_items : forall h x, linked h -> tidy h -> x < length h -> exists vs, items h x = Ok vs /\ NoDup (map fst vs) /\ forall k v, In (k, v) vs <-> sees h x k v.
Proof. exact items_spec. Qed.
Print Assumptions C93_items.
Theorem C93_contains : forall h x k, linked h -> tidy h -> x < length h -> exists b, contains h x k = Ok b /\ (b = true <-> exists v, sees h x k v).
Proof. exact contains_spec. Qed.
Print Assumptions C93_contains.
Example C93_keys_ex : items demo 2 = Ok [(0, Plain 7%Z); (1, Plain 3%Z)] /\ items demo 3 = Ok [(2, Plain 1%Z); (0, Plain 5%Z)] /\ len demo 3 = Ok 2.
Proof. exact (conj eq_refl (conj eq_refl eq_refl)). Qed.

(* after a key was set its new value is seen at the node and below it, as far as the key is not set there; nothing else changes *)
Theorem C93_set : forall h x k z, linked h -> tidy h -> x < length h -> ~ sees h x k Sub ->
  exists h', setitem h x k (GPlain z) = (h', Ok tt) /\ linked h' /\ tidy h' /\ (forall y l, chain h y l <-> chain h' y l) /\
    (forall y, covered h x y k -> sees h' y k (Plain z)) /\
    (forall y k' v, y < length h -> k' <> k \/ ~ covered h x y k -> (sees h' y k' v <-> sees h y k' v)).
Proof. exact set_spec. Qed.
Print Assumptions C93_set.
Example C93_set_ex : exists h, setitem demo 0 0 (GPlain 9%Z) = (h, Ok tt) /\ getitem h 1 0 = Ok (Plain 9%Z) /\ getitem h 2 0 = Ok (Plain 7%Z).
Proof. eexists. split; [reflexivity|]. exact (conj eq_refl eq_refl). Qed.

(* after a key was deleted the node and everything below it see the value of the parent of the node, if any *)
Theorem C93_delete : forall h x k, linked h -> tidy h -> x < length h ->
  exists h', delitem h x k = Ok h' /\ linked h' /\ tidy h' /\ (forall y l, chain h y l <-> chain h' y l) /\
    (forall y v, at_or_below h x y -> (sees h' y k v <-> exists p, under h x (Some p) /\ sees h p k v)) /\
    (forall y k' v, y < length h -> k' <> k \/ ~ at_or_below h x y -> (sees h' y k' v <-> sees h y k' v)).
Proof. exact delitem_spec. Qed.
Print Assumptions C93_delete.
Example C93_delete_ex : exists h, delitem demo 1 0 = Ok h /\ getitem h 2 0 = Ok (Plain 5%Z).
Proof. eexists. split; [reflexivity|]. exact eq_refl. Qed.

(* a recursive update is seen everywhere below the node *)
Theorem C93_update_recursive : forall h x d, linked h -> tidy h -> x < length h -> NoDup (map fst d) -> (forall k z, In (k, z) d -> ~ sees h x k Sub) ->
  exists h', update_recursive h x (map (fun kz => (fst kz, GPlain (snd kz))) d) = (h', Ok tt) /\ linked h' /\ tidy h' /\ (forall y l, chain h y l <-> chain h' y l) /\
    (forall y k z, at_or_below h x y -> In (k, z) d -> sees h' y k (Plain z)) /\
    (forall y k v, y < length h -> ~ In k (map fst d) \/ ~ at_or_below h x y -> (sees h' y k v <-> sees h y k v)).
Proof. exact update_recursive_spec. Qed.
Print Assumptions C93_update_recursive.
Example C93_update_recursive_ex : exists h, update_recursive demo 0 [(0, GPlain 9%Z); (4, GPlain 2%Z)] = (h, Ok tt) /\ getitem h 2 0 = Ok (Plain 9%Z) /\ getitem h 3 4 = Ok (Plain 2%Z).
Proof. eexists. split; [reflexivity|]. exact (conj eq_refl eq_refl). Qed.

(* setting a key to the value it inherits stores nothing: a later change of the parent shows through *)
Theorem C93_pinned_refuted : forall h x p k z z', linked h -> tidy h -> plain h -> under h x (Some p) -> sees h p k (Plain z) -> ~ owns h x k -> z' <> z ->
  setitem h x k (GPlain z) = (h, Ok tt) /\ exists h', setitem h p k (GPlain z') = (h', Ok tt) /\ sees h' x k (Plain z').
Proof. exact not_pinned. Qed.
Print Assumptions C93_pinned_refuted.
Example C93_pinned_ex : setitem demo 1 0 (GPlain 5%Z) = (demo, Ok tt).
Proof. exact eq_refl. Qed.

(* a key that an ancestor has is still there after it was popped *)
Theorem C93_pop : forall h x k, linked h -> tidy h -> x < length h ->
  (forall v, sees h x k v -> exists h', pop h x k = Ok (h', v) /\ delitem h x k = Ok h') /\ ((forall v, ~ sees h x k v) -> pop h x k = Err KeyError).
Proof. exact pop_spec. Qed.
Print Assumptions C93_pop.
Theorem C93_pop_refuted : forall h x k p v, linked h -> tidy h -> under h x (Some p) -> sees h p k v -> exists h' w, pop h x k = Ok (h', w) /\ sees h' x k v.
Proof. exact pop_stays. Qed.
Print Assumptions C93_pop_refuted.
(* and so clear never ends, whatever the number n of keys that are popped *)
Theorem C93_clear_refuted : forall h x p k v n, linked h -> tidy h -> under h x (Some p) -> sees h p k v -> clear n h x = None.
Proof. exact clear_never. Qed.
Print Assumptions C93_clear_refuted.
Example C93_clear_ex : (exists h, pop demo 2 0 = Ok (h, Plain 7%Z) /\ getitem h 2 0 = Ok (Plain 5%Z)) /\ clear 50 demo 3 = None /\ exists h, clear 2 demo 0 = Some h /\ len h 0 = Ok 0.
Proof. split; [eexists; split; reflexivity|]. split; [exact eq_refl|]. eexists. split; reflexivity. Qed.

(* a key cannot be set to a dictionary, and after the attempt the key cannot be set at all *)
Theorem C93_dictionary_refuted : forall h x k e, linked h -> tidy h -> x < length h ->
  exists h' er, setitem h x k (GDict e) = (h', Err er) /\
    (owns h x k -> h' = h) /\ (~ owns h x k -> ~ sees h x k Sub -> er = TypeError /\ linked h' /\ tidy h' /\ length h' = length h /\ sees h' x k Sub).
Proof. exact dict_fails. Qed.
Print Assumptions C93_dictionary_refuted.
Theorem C93_stuck_refuted : forall h x k g, linked h -> tidy h -> x < length h -> sees h x k Sub -> setitem h x k g = (h, Err TypeError).
Proof. exact dict_stuck. Qed.
Print Assumptions C93_stuck_refuted.
Example C93_dictionary_ex : exists h, setitem demo 1 6 (GDict [(0, 1%Z)]) = (h, Err TypeError) /\ setitem h 2 6 (GPlain 4%Z) = (h, Err TypeError).
Proof. eexists. split; reflexivity. Qed.

(* fromdict cannot leave the existing keys alone *)
Theorem C93_fromdict_refuted : forall h x k g d r, fromdict h x ((k, g) :: d) false r = (h, Err AttributeError).
Proof. reflexivity. Qed.
Print Assumptions C93_fromdict_refuted.
Theorem C93_isinherited_refuted : forall h x k, isinheritedkey h x k = Err TypeError.
Proof. reflexivity. Qed.
Print Assumptions C93_isinherited_refuted.

(* ---- C94: the links between nodes ---- *)

(* a node gets another parent *)
Theorem C94_parent : forall h x n, linked h -> x < length h -> n < length h -> ~ at_or_below h x n -> exists h', set_parent h x (Some n) = Ok h' /\ linked h' /\ kept h h' /\ under h' x (Some n) /\
  forall y p, y <> x -> (under h' y p <-> under h y p).
Proof. exact far_moves. Qed.
Print Assumptions C94_parent.
Theorem C94_parent_none : forall h x, linked h -> x < length h -> exists h', set_parent h x None = Ok h' /\ linked h' /\ kept h h' /\ under h' x None /\
  forall y p, y <> x -> (under h' y p <-> under h y p).
Proof. exact top_moves. Qed.
Print Assumptions C94_parent_none.
(* when the new parent is below the node it first takes the place of the node: there are never cycles *)
Theorem C94_parent_below : forall h x n, linked h -> at_or_below h x n -> n <> x -> exists h', set_parent h x (Some n) = Ok h' /\ linked h' /\ kept h h' /\ under h' x (Some n) /\
  (forall p, under h' n p <-> under h x p) /\ forall y p, y <> x -> y <> n -> (under h' y p <-> under h y p).
Proof. exact below_moves. Qed.
Print Assumptions C94_parent_below.
Theorem C94_parent_self : forall h x, set_parent h x (Some x) = Ok h.
Proof. exact self_moves. Qed.
Print Assumptions C94_parent_self.
Example C94_parent_ex : (exists h, set_parent demo 0 (Some 2) = Ok h /\ map up h = [Some 2; Some 0; None; Some 0; None] /\ map down h = [[1; 3]; []; [0]; []; []])
  /\ (exists h, set_parent demo 1 (Some 4) = Ok h /\ map up h = [None; Some 4; Some 1; Some 0; None] /\ map down h = [[3]; [2]; []; []; [1]]).
Proof. split; (eexists; split; [reflexivity|]; split; reflexivity). Qed.

Theorem C94_branch : forall h x, linked h -> x < length h -> exists h', branch h x = Ok (h', length h) /\ linked h' /\ kept h h' /\ length h' = S (length h) /\ under h' (length h) (Some x) /\
  forall y p, y < length h -> (under h' y p <-> under h y p).
Proof. exact branch_moves. Qed.
Print Assumptions C94_branch.
Theorem C94_root : forall h x l r, chain h x l -> (root h x = Ok r <-> exists a, l = a ++ [r]).
Proof. exact root_spec. Qed.
Print Assumptions C94_root.
Theorem C94_down : forall h x, linked h -> x < length h -> exists d, iter_down h x = Ok d /\ forall y, In y d <-> at_or_below h x y.
Proof. exact iter_down_spec. Qed.
Print Assumptions C94_down.
Example C94_root_ex : root demo 2 = Ok 0 /\ iter_up demo 2 = Ok [2; 1; 0] /\ iter_down demo 0 = Ok [0; 1; 2; 3].
Proof. exact (conj eq_refl (conj eq_refl eq_refl)). Qed.

(* a single node is taken out: the others keep their ancestors without it; for a node at the top a new one takes its place *)
Theorem C94_remove : forall h x, linked h -> x < length h -> exists h' np, remove h x true = Ok (h', np) /\ linked h' /\ kept h h' /\
  (under h x None -> np = Some (length h)) /\ (forall p, under h x (Some p) -> np = None) /\ chain h' x [x] /\ (forall y, ~ under h' y (Some x)) /\
  forall y l t, y <> x -> chain h y l -> ends np x l t -> chain h' y (without x l ++ t).
Proof. exact remove_moves. Qed.
Print Assumptions C94_remove.
(* a node is taken out with everything below it *)
Theorem C94_remove_tree : forall h x, linked h -> x < length h -> exists h', remove h x false = Ok (h', None) /\ linked h' /\ kept h h' /\ under h' x None /\
  forall y p, y <> x -> (under h' y p <-> under h y p).
Proof. exact remove_tree_moves. Qed.
Print Assumptions C94_remove_tree.
Example C94_remove_ex : (exists h, remove demo 1 true = Ok (h, None) /\ map up h = [None; None; Some 0; Some 0; None] /\ map down h = [[3; 2]; []; []; []; []])
  /\ (exists h, remove demo 0 true = Ok (h, Some 5) /\ map up h = [None; Some 5; Some 1; Some 5; None; None]).
Proof. split; (eexists; split; [reflexivity|]; repeat split). Qed.

(* a single node n is put between x and its parent, or between x and its children *)
Theorem C94_before : forall h x n, linked h -> x < length h -> n < length h -> n <> x -> ~ under h x (Some n) ->
  exists h' np, insert_before h x (Some n) true = Ok (h', Some n, np) /\ linked h' /\ kept h h' /\
    (under h n None -> np = Some (length h)) /\ (forall p, under h n (Some p) -> np = None) /\
    (forall y l t, y <> n -> chain h y l -> ends np n l t -> chain h' y (behind x n (without n l ++ t))) /\
    (forall m t, chain h x (x :: m) -> ends np n m t -> chain h' n (n :: without n m ++ t)).
Proof. exact before_moves. Qed.
Print Assumptions C94_before.
Theorem C94_after : forall h x n, linked h -> x < length h -> n < length h -> n <> x -> ~ under h n (Some x) ->
  exists h' np, insert_after h x (Some n) true = Ok (h', n, np) /\ linked h' /\ kept h h' /\
    (under h n None -> np = Some (length h)) /\ (forall p, under h n (Some p) -> np = None) /\
    (forall y l t, y <> n -> chain h y l -> ends np n l t -> chain h' y (before x n (without n l ++ t))) /\
    (forall l t, chain h x l -> ends np n l t -> chain h' n (n :: without n l ++ t)).
Proof. exact after_moves. Qed.
Print Assumptions C94_after.
Example C94_before_ex : (exists h, insert_before demo 2 (Some 3) true = Ok (h, Some 3, None) /\ map up h = [None; Some 0; Some 3; Some 1; None])
  /\ (exists h, insert_after demo 0 (Some 2) true = Ok (h, 2, None) /\ map up h = [None; Some 2; Some 0; Some 2; None]).
Proof. split; (eexists; split; [reflexivity|]; reflexivity). Qed.

(* with everything below it: the node must be at the top of another tree or below x *)
Theorem C94_before_tree_partial : forall h x n, linked h -> x < length h -> n < length h -> n <> x -> ~ under h x (Some n) ->
  at_or_below h x n \/ (under h n None /\ ~ at_or_below h n x) ->
  exists h', insert_before h x (Some n) false = Ok (h', Some n, None) /\ linked h' /\ kept h h' /\ under h' x (Some n) /\
    (forall p, under h' n p <-> under h x p) /\ forall y p, y <> x -> y <> n -> (under h' y p <-> under h y p).
Proof. exact before_tree_moves. Qed.
Print Assumptions C94_before_tree_partial.
(* otherwise x leaves its place: it goes with the tree of n, or their ancestor is cut off *)
Theorem C94_before_hanging_refuted : forall h x n q, linked h -> x < length h -> n <> x -> ~ under h x (Some n) -> ~ at_or_below h x n -> under h n (Some q) ->
  exists h', insert_before h x (Some n) false = Ok (h', Some n, None) /\ linked h' /\ kept h h' /\ under h' x (Some n) /\ forall y p, y <> x -> (under h' y p <-> under h y p).
Proof. exact before_hanging_moves. Qed.
Print Assumptions C94_before_hanging_refuted.
Theorem C94_before_ancestor_refuted : forall h x n k, linked h -> n <> x -> ~ under h x (Some n) -> at_or_below h n x -> under h n None -> under h x (Some k) ->
  exists h', insert_before h x (Some n) false = Ok (h', Some n, None) /\ linked h' /\ kept h h' /\ under h' x (Some n) /\ under h' n (Some k) /\ under h' k None /\
    forall y p, y <> x -> y <> n -> y <> k -> (under h' y p <-> under h y p).
Proof. exact before_ancestor_moves. Qed.
Print Assumptions C94_before_ancestor_refuted.
Example C94_before_tree_ex : (exists h, insert_before demo 2 (Some 4) false = Ok (h, Some 4, None) /\ map up h = [None; Some 0; Some 4; Some 0; Some 1])
  /\ (exists h, insert_before demo 2 (Some 3) false = Ok (h, Some 3, None) /\ map up h = [None; Some 0; Some 3; Some 0; None])
  /\ (exists h, insert_before demo 2 (Some 0) false = Ok (h, Some 0, None) /\ map up h = [Some 1; None; Some 0; Some 0; None]).
Proof. split; [|split]; (eexists; split; [reflexivity|]; reflexivity). Qed.
Theorem C94_after_tree : forall h x n, linked h -> x < length h -> n < length h -> n <> x -> ~ under h n (Some x) ->
  exists h', insert_after h x (Some n) false = Ok (h', n, None) /\ linked h' /\ kept h h' /\ under h' n (Some x) /\
    (forall y, y <> n -> under h y (Some x) -> under h' y (Some n)) /\
    (forall p, at_or_below h n x -> (under h' x p <-> under h n p)) /\
    (forall y p, y <> n -> ~ under h y (Some x) -> (y <> x \/ ~ at_or_below h n x) -> (under h' y p <-> under h y p)).
Proof. exact after_tree_moves. Qed.
Print Assumptions C94_after_tree.
Example C94_after_tree_ex : (exists h, insert_after demo 0 (Some 4) false = Ok (h, 4, None) /\ map up h = [None; Some 4; Some 1; Some 4; Some 0])
  /\ (exists h, insert_after demo 2 (Some 0) false = Ok (h, 0, None) /\ map up h = [Some 2; Some 0; None; Some 0; None]).
Proof. split; (eexists; split; [reflexivity|]; reflexivity). Qed.

(* a new node put before another changes no value *)
Theorem C94_new : forall h x, linked h -> tidy h -> x < length h -> ~ under h x None ->
  exists h', insert_before h x None false = Ok (h', Some (length h), None) /\ linked h' /\ tidy h' /\ kept h h' /\ holds h' (length h) [] [] None /\
    (forall y l, chain h y l -> chain h' y (behind x (length h) l)) /\
    (forall y k v, y < length h -> (sees h' y k v <-> sees h y k v)).
Proof. exact insert_new_sees. Qed.
Print Assumptions C94_new.
Example C94_new_ex : exists h, insert_before demo 1 None false = Ok (h, Some 5, None) /\ map up h = [None; Some 5; Some 1; Some 0; None; Some 0].
Proof. eexists. split; reflexivity. Qed.
(* but nothing is put before a node at the top, and nothing after any node *)
Theorem C94_new_top_refuted : forall h x, under h x None -> insert_before h x None false = Ok (h, None, None).
Proof. exact root_new. Qed.
Print Assumptions C94_new_top_refuted.
Theorem C94_new_after_refuted : forall h x s, insert_after h x None s = Err AttributeError.
Proof. reflexivity. Qed.
Print Assumptions C94_new_after_refuted.

(* ---- C95: the record of changes ---- *)

(* resetting changes no value or link, and the nodes that were reset are not changed *)
Theorem C95_reset : forall h x r, plain h -> linked h -> tidy h -> x < length h ->
  exists h', reset_state h x false r = Ok h' /\ linked h' /\ tidy h' /\ plain h' /\ (forall y l, chain h y l <-> chain h' y l) /\ (forall y k v, sees h' y k v <-> sees h y k v) /\
    (forall y, y = x \/ r = true /\ at_or_below h x y -> changed h' y = Ok false) /\
    (forall y, y < length h -> ~ (y = x \/ r = true /\ at_or_below h x y) -> changed h' y = changed h y).
Proof. exact reset_spec. Qed.
Print Assumptions C95_reset.
Example C95_reset_ex : exists h, reset_state demo 1 false true = Ok h /\ map (changed h) [0; 1; 2; 3] = [Ok true; Ok false; Ok false; Ok true].
Proof. eexists. split; reflexivity. Qed.

(* the keys of the nodes that were reset are not marked as changed; the marks of other nodes stay *)
Theorem C95_marks : forall h x r, plain h -> linked h -> tidy h -> x < length h ->
  exists h', reset_state h x false r = Ok h' /\ length h' = length h /\
    forall y c c', nth_error h y = Some c -> nth_error h' y = Some c' -> (y = x \/ r = true /\ at_or_below h x y -> fresh c' = []) /\ (~ (y = x \/ r = true /\ at_or_below h x y) -> fresh c' = fresh c).
Proof. exact reset_marks. Qed.
Print Assumptions C95_marks.
Example C95_marks_ex : exists h h', setitem demo 0 0 (GPlain 9%Z) = (h, Ok tt) /\ map fresh h <> map fresh demo /\ reset_state h 0 false false = Ok h' /\ annotated_keys h 0 = Ok [(0, (true, true))] /\ annotated_keys h' 0 = Ok [(0, (true, false))].
Proof. eexists _, _. split; [reflexivity|]. split; [discriminate|]. split; [reflexivity|]. split; reflexivity. Qed.

(* later a node is not changed exactly if the node and its ancestors hold, one by one, what they held at the time of the reset *)
Theorem C95_changed : forall h h2 y h1 l l2, plain h -> linked h -> tidy h -> plain h2 -> tidy h2 -> reset_state h y false false = Ok h1 -> chain h y l -> chain h2 y l2 ->
  (exists c1 c2, nth_error h1 y = Some c1 /\ nth_error h2 y = Some c2 /\ last c2 = last c1) ->
  exists b, changed h2 y = Ok b /\ (b = false <-> Forall2 (fun a b => forall k v, (exists c, nth_error h a = Some c /\ In (k, v) (data c)) <-> (exists c, nth_error h2 b = Some c /\ In (k, v) (data c))) l l2).
Proof. exact reset_changed. Qed.
Print Assumptions C95_changed.
(* in particular all values are those at the time of the reset *)
Theorem C95_values : forall h h2 y h1 k v, plain h -> linked h -> tidy h -> plain h2 -> linked h2 -> tidy h2 -> reset_state h y false false = Ok h1 ->
  (exists c1 c2, nth_error h1 y = Some c1 /\ nth_error h2 y = Some c2 /\ last c2 = last c1) -> changed h2 y = Ok false -> (sees h2 y k v <-> sees h y k v).
Proof. exact reset_values. Qed.
Print Assumptions C95_values.
(* setting a key changes the node and everything below it, also where the key is overridden, unless it had that value *)
Theorem C95_set : forall h x k z y h' r, plain h -> linked h -> tidy h -> x < length h -> changed h y = Ok false -> y < length h -> setitem h x k (GPlain z) = (h', r) ->
  exists b, changed h' y = Ok b /\ (b = true <-> at_or_below h x y /\ ~ sees h x k (Plain z)).
Proof. exact set_changed_iff. Qed.
Print Assumptions C95_set.
Example C95_set_ex : exists h h' h'' h''', reset_state demo 0 false true = Ok h /\ setitem h 1 4 (GPlain 2%Z) = (h', Ok tt) /\ map (changed h') [0; 1; 2; 3] = [Ok false; Ok true; Ok true; Ok false]
  /\ delitem h' 1 4 = Ok h'' /\ map (changed h'') [0; 1; 2; 3] = [Ok false; Ok false; Ok false; Ok false]
  /\ setitem h 0 0 (GPlain 8%Z) = (h''', Ok tt) /\ changed h''' 2 = Ok true /\ items h''' 2 = items h 2.
Proof. eexists _, _, _, _. split; [reflexivity|]. split; [reflexivity|]. split; [reflexivity|]. split; [reflexivity|]. split; [reflexivity|]. split; [reflexivity|]. split; reflexivity. Qed.

(* the annotated keys are the keys, and those of the node itself are told apart *)
Theorem C95_annotated : forall h x, linked h -> tidy h -> x < length h ->
  exists l ks, annotated_keys h x = Ok l /\ iter_keys h x true = Ok ks /\ map fst l = ks /\ forall k b f, In (k, (b, f)) l -> (b = true <-> owns h x k).
Proof. exact annotated_spec. Qed.
Print Assumptions C95_annotated.
Example C95_annotated_ex : exists h, setitem demo 0 0 (GPlain 9%Z) = (h, Ok tt) /\ annotated_keys h 3 = Ok [(2, (true, false)); (0, (false, true))].
Proof. eexists. split; reflexivity. Qed.

(* a new empty node makes the nodes below it changed although no value is another *)
Theorem C95_new_refuted : exists h h' h'', reset_state demo 0 false true = Ok h /\ changed h 2 = Ok false /\ insert_before h 1 None false = Ok (h', Some 5, None) /\ changed h' 2 = Ok true /\ items h' 2 = items h 2
  /\ remove h' 5 true = Ok (h'', None) /\ changed h'' 2 = Ok false.
Proof. eexists _, _, _. split; [reflexivity|]. split; [reflexivity|]. split; [reflexivity|]. split; [reflexivity|]. split; [reflexivity|]. split; reflexivity. Qed.
Print Assumptions C95_new_refuted.
(* a key that was set and set back is marked as changed at a node that is not changed *)
Theorem C95_mark_refuted : exists h h' h'', reset_state demo 0 false true = Ok h /\ setitem h 0 0 (GPlain 6%Z) = (h', Ok tt) /\ setitem h' 0 0 (GPlain 5%Z) = (h'', Ok tt)
  /\ changed h'' 0 = Ok false /\ annotated_keys h'' 0 = Ok [(0, (true, true))].
Proof. eexists _, _, _. split; [reflexivity|]. split; [reflexivity|]. split; [reflexivity|]. split; reflexivity. Qed.
Print Assumptions C95_mark_refuted.
(* a key whose value was deleted, so that another is inherited, is not marked as changed *)
Theorem C95_deleted_refuted : exists h h', reset_state demo 0 false true = Ok h /\ delitem h 2 0 = Ok h' /\ getitem h 2 0 = Ok (Plain 7%Z) /\ getitem h' 2 0 = Ok (Plain 5%Z)
  /\ changed h' 2 = Ok true /\ annotated_keys h' 2 = Ok [(1, (true, false)); (0, (false, false))].
Proof. eexists _, _. split; [reflexivity|]. split; [reflexivity|]. split; [reflexivity|]. split; [reflexivity|]. split; reflexivity. Qed.
Print Assumptions C95_deleted_refuted.
(* an annotated key cannot tell whether it is inherited *)
Theorem C95_inherited_refuted : forall a, annotated_inherited a = Err AttributeError.
Proof. reflexivity. Qed.
Print Assumptions C95_inherited_refuted.
(* an attempt to store a dictionary breaks the record of the node and of everything below *)
Theorem C95_dictionary_refuted : exists h h', reset_state demo 0 false true = Ok h /\ setitem h 1 6 (GDict []) = (h', Err TypeError)
  /\ map (changed h') [0; 1; 2; 3] = [Ok false; Err TypeError; Err TypeError; Ok false].
Proof. eexists _, _. split; [reflexivity|]. split; reflexivity. Qed.
Print Assumptions C95_dictionary_refuted.
