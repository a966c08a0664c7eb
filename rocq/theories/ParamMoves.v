(* The rearrangements in terms of parents and of what is seen. *)
From Verif Require Import Base BaseProofs ParamModel ParamSpec ParamProofs ParamLinks ParamChains ParamData ParamState.
Local Open Scope nat_scope.

Lemma moves_under h h' f : moves h h' f -> forall y p, under h' y p <-> y < length h /\ f y = p.
Proof.
  intros (_ & _ & N & P) y p. split.
  - intros U. pose proof (under_lt _ _ _ U) as Y. apply (under_parent _ _ _ Y) in U. rewrite <- P. split; [lia | exact U].
  - intros [Y E]. apply under_parent; [lia|]. rewrite P. exact E.
Qed.
Lemma under_iff h y p : under h y p <-> y < length h /\ parent h y = p.
Proof.
  split; [intros U; pose proof (under_lt _ _ _ U) as Y; split; [exact Y | apply (under_parent _ _ _ Y); exact U] | intros [Y E]; apply under_parent; assumption].
Qed.

Lemma top_moves h x : linked h -> x < length h -> exists h', set_parent h x None = Ok h' /\ linked h' /\ kept h h' /\ under h' x None /\
  forall y p, y <> x -> (under h' y p <-> under h y p).
Proof.
  intros L X. destruct (set_parent_top h x L X) as (h' & E & M). exists h'. split; [exact E|]. split; [apply M|]. split; [apply M|]. split.
  - apply (moves_under _ _ _ M). rewrite Nat.eqb_refl. split; [exact X | reflexivity].
  - intros y p N. rewrite (moves_under _ _ _ M), (proj2 (Nat.eqb_neq y x) N), under_iff. reflexivity.
Qed.
Lemma far_moves h x n : linked h -> x < length h -> n < length h -> ~ at_or_below h x n -> exists h', set_parent h x (Some n) = Ok h' /\ linked h' /\ kept h h' /\ under h' x (Some n) /\
  forall y p, y <> x -> (under h' y p <-> under h y p).
Proof.
  intros L X N F. destruct (linked_chain h n L N) as [ln C].
  destruct (set_parent_far h x n ln L X C) as (h' & E & M); [intros I; apply F; exists ln; split; assumption|].
  exists h'. split; [exact E|]. split; [apply M|]. split; [apply M|]. split.
  - apply (moves_under _ _ _ M). rewrite Nat.eqb_refl. split; [exact X | reflexivity].
  - intros y p D. rewrite (moves_under _ _ _ M), (proj2 (Nat.eqb_neq y x) D), under_iff. reflexivity.
Qed.
Lemma below_moves h x n : linked h -> at_or_below h x n -> n <> x -> exists h', set_parent h x (Some n) = Ok h' /\ linked h' /\ kept h h' /\ under h' x (Some n) /\
  (forall p, under h' n p <-> under h x p) /\ forall y p, y <> x -> y <> n -> (under h' y p <-> under h y p).
Proof.
  intros L (ln & C & I) D. pose proof (chain_all_lt _ _ _ _ C I) as X. pose proof (chain_lt _ _ _ C) as N.
  destruct (set_parent_below h x n ln L C I D) as (h' & E & M). exists h'. split; [exact E|]. split; [apply M|]. split; [apply M|]. split; [|split].
  - apply (moves_under _ _ _ M). rewrite Nat.eqb_refl. split; [exact X | reflexivity].
  - intros p. rewrite (moves_under _ _ _ M), (proj2 (Nat.eqb_neq n x) D), Nat.eqb_refl, under_iff. tauto.
  - intros y p D1 D2. rewrite (moves_under _ _ _ M), (proj2 (Nat.eqb_neq y x) D1), (proj2 (Nat.eqb_neq y n) D2), under_iff. reflexivity.
Qed.
Lemma self_moves h x : set_parent h x (Some x) = Ok h.
Proof. unfold set_parent. cbn [opt_eqb]. rewrite Nat.eqb_refl. reflexivity. Qed.

Lemma branch_moves h x : linked h -> x < length h -> exists h', branch h x = Ok (h', length h) /\ linked h' /\ kept h h' /\ length h' = S (length h) /\ under h' (length h) (Some x) /\
  forall y p, y < length h -> (under h' y p <-> under h y p).
Proof.
  intros L X. destruct (branch_spec h x L X) as (h' & E & L' & K & N & P). exists h'. repeat (split; [assumption|]). split.
  - apply under_iff. rewrite P, Nat.eqb_refl. split; [lia | reflexivity].
  - intros y p Y. rewrite !under_iff, P, (proj2 (Nat.eqb_neq y (length h))) by lia. split; intros [_ Q]; (split; [lia | exact Q]).
Qed.

Lemma remove_tree_moves h x : linked h -> x < length h -> exists h', remove h x false = Ok (h', None) /\ linked h' /\ kept h h' /\ under h' x None /\
  forall y p, y <> x -> (under h' y p <-> under h y p).
Proof.
  intros L X. destruct (remove_branch h x L X) as (h' & E & M). exists h'. split; [exact E|]. split; [apply M|]. split; [apply M|]. split.
  - apply (moves_under _ _ _ M). rewrite Nat.eqb_refl. split; [exact X | reflexivity].
  - intros y p N. rewrite (moves_under _ _ _ M), (proj2 (Nat.eqb_neq y x) N), under_iff. reflexivity.
Qed.

(* a node with everything below it *)
Lemma before_tree_moves h x n : linked h -> x < length h -> n < length h -> n <> x -> ~ under h x (Some n) ->
  at_or_below h x n \/ (under h n None /\ ~ at_or_below h n x) ->
  exists h', insert_before h x (Some n) false = Ok (h', Some n, None) /\ linked h' /\ kept h h' /\ under h' x (Some n) /\
    (forall p, under h' n p <-> under h x p) /\ forall y p, y <> x -> y <> n -> (under h' y p <-> under h y p).
Proof.
  intros L X N D U H. destruct (linked_chain h x L X) as [lx Cx]. destruct (linked_chain h n L N) as [ln Cn].
  assert (Px : parent h x <> Some n) by (intros E; apply U; apply under_parent; assumption).
  assert (G : exists h', insert_before h x (Some n) false = Ok (h', Some n, None) /\
    moves h h' (fun y => if Nat.eqb y x then Some n else if Nat.eqb y n then parent h x else parent h y)).
  { destruct H as [(l & C & I)|[T B]].
    - rewrite (chain_fun _ _ _ _ C Cn) in I. exact (before_own h x n lx ln L Cx Cn D Px I).
    - assert (In x ln -> False).
      { intros I. apply (under_parent _ _ _ N) in T. rewrite (chain_fun _ _ _ _ Cn (chain_top h n N T)) in I. destruct I as [I | []]. congruence. }
      apply (before_root h x n lx ln L Cx Cn D Px); [assumption | intros J; apply B; exists lx; split; assumption | apply (under_parent _ _ _ N); exact T]. }
  destruct G as (h' & E & M). exists h'. split; [exact E|]. split; [apply M|]. split; [apply M|]. split; [|split].
  - apply (moves_under _ _ _ M). rewrite Nat.eqb_refl. split; [exact X | reflexivity].
  - intros p. rewrite (moves_under _ _ _ M), (proj2 (Nat.eqb_neq n x) D), Nat.eqb_refl, under_iff. tauto.
  - intros y p D1 D2. rewrite (moves_under _ _ _ M), (proj2 (Nat.eqb_neq y x) D1), (proj2 (Nat.eqb_neq y n) D2), under_iff. reflexivity.
Qed.
Lemma before_hanging_moves h x n q : linked h -> x < length h -> n <> x -> ~ under h x (Some n) -> ~ at_or_below h x n -> under h n (Some q) ->
  exists h', insert_before h x (Some n) false = Ok (h', Some n, None) /\ linked h' /\ kept h h' /\ under h' x (Some n) /\ forall y p, y <> x -> (under h' y p <-> under h y p).
Proof.
  intros L X D U B T. pose proof (under_lt _ _ _ T) as N. destruct (linked_chain h x L X) as [lx Cx]. destruct (linked_chain h n L N) as [ln Cn].
  assert (Px : parent h x <> Some n) by (intros E; apply U; apply under_parent; assumption).
  destruct (before_hanging h x n lx ln L Cx Cn D Px q) as (h' & E & M); [intros I; apply B; exists ln; split; assumption | apply (under_parent _ _ _ N); exact T|].
  exists h'. split; [exact E|]. split; [apply M|]. split; [apply M|]. split.
  - apply (moves_under _ _ _ M). rewrite Nat.eqb_refl. split; [exact X | reflexivity].
  - intros y p D1. rewrite (moves_under _ _ _ M), (proj2 (Nat.eqb_neq y x) D1), under_iff. reflexivity.
Qed.
Lemma before_ancestor_moves h x n k : linked h -> n <> x -> ~ under h x (Some n) -> at_or_below h n x -> under h n None -> under h x (Some k) ->
  exists h', insert_before h x (Some n) false = Ok (h', Some n, None) /\ linked h' /\ kept h h' /\ under h' x (Some n) /\ under h' n (Some k) /\ under h' k None /\
    forall y p, y <> x -> y <> n -> y <> k -> (under h' y p <-> under h y p).
Proof.
  intros L D U (lx & Cx & I) T K. pose proof (under_lt _ _ _ T) as N. pose proof (under_lt _ _ _ K) as X. destruct (linked_chain h n L N) as [ln Cn].
  assert (Px : parent h x <> Some n) by (intros E; apply U; apply under_parent; assumption).
  pose proof K as K'. apply (under_parent _ _ _ X) in K'. pose proof T as T'. apply (under_parent _ _ _ N) in T'.
  destruct (before_ancestor h x n lx ln L Cx Cn D Px k T' I K') as (h' & E & M).
  assert (Kn : k <> n) by congruence. assert (Kx : k <> x). { intros ->. exact (not_own_parent h x L X K'). }
  assert (Kl : k < length h). { destruct (linked_up_chain h x k L K) as (l & Ck & _). exact (chain_lt _ _ _ Ck). }
  exists h'. split; [exact E|]. split; [apply M|]. split; [apply M|]. split; [|split; [|split]].
  - apply (moves_under _ _ _ M). rewrite Nat.eqb_refl. split; [exact X | reflexivity].
  - apply (moves_under _ _ _ M). rewrite (proj2 (Nat.eqb_neq n x) D), Nat.eqb_refl. split; [exact N | reflexivity].
  - apply (moves_under _ _ _ M). rewrite (proj2 (Nat.eqb_neq k x) Kx), (proj2 (Nat.eqb_neq k n) Kn), Nat.eqb_refl. split; [exact Kl | reflexivity].
  - intros y p D1 D2 D3. rewrite (moves_under _ _ _ M), (proj2 (Nat.eqb_neq y x) D1), (proj2 (Nat.eqb_neq y n) D2), (proj2 (Nat.eqb_neq y k) D3), under_iff. reflexivity.
Qed.
Lemma after_tree_moves h x n : linked h -> x < length h -> n < length h -> n <> x -> ~ under h n (Some x) ->
  exists h', insert_after h x (Some n) false = Ok (h', n, None) /\ linked h' /\ kept h h' /\ under h' n (Some x) /\
    (forall y, y <> n -> under h y (Some x) -> under h' y (Some n)) /\
    (forall p, at_or_below h n x -> (under h' x p <-> under h n p)) /\
    (forall y p, y <> n -> ~ under h y (Some x) -> (y <> x \/ ~ at_or_below h n x) -> (under h' y p <-> under h y p)).
Proof.
  intros L X N D U. destruct (linked_chain h x L X) as [lx Cx].
  assert (Pn : parent h n <> Some x) by (intros E; apply U; apply under_parent; assumption).
  destruct (insert_after_branch h x n lx L Cx N D Pn) as (h' & E & M). exists h'. split; [exact E|]. split; [apply M|]. split; [apply M|].
  assert (Below : at_or_below h n x <-> existsb (Nat.eqb n) lx = true).
  { rewrite existsb_In. split; [intros (l & C & I); rewrite (chain_fun _ _ _ _ C Cx) in I; exact I | intros I; exists lx; split; assumption]. }
  split; [|split; [|split]].
  - apply (moves_under _ _ _ M). rewrite Nat.eqb_refl. split; [exact N | reflexivity].
  - intros y Dy Uy. apply (moves_under _ _ _ M). apply under_iff in Uy. destruct Uy as [Y Py]. rewrite (proj2 (Nat.eqb_neq y n) Dy), Py.
    rewrite (proj2 (opt_eqb_spec (Some x) (Some x)) eq_refl). split; [exact Y | reflexivity].
  - intros p B. rewrite (moves_under _ _ _ M), under_iff, (proj2 (Nat.eqb_neq x n)) by congruence.
    rewrite (proj2 (opt_eqb_neq (parent h x) (Some x)) (not_own_parent h x L X)), Nat.eqb_refl, (proj1 Below B). cbn [andb]. tauto.
  - intros y p Dy Uy H. rewrite (moves_under _ _ _ M), under_iff, (proj2 (Nat.eqb_neq y n) Dy).
    destruct (Nat.lt_ge_cases y (length h)) as [Y|Y]; [|split; intros [Q _]; lia].
    rewrite (proj2 (opt_eqb_neq (parent h y) (Some x))) by (intros Q; apply Uy; apply under_parent; assumption).
    destruct (Nat.eqb y x && existsb (Nat.eqb n) lx) eqn:B; [|reflexivity]. apply andb_true_iff in B. destruct B as [B1 B2]. apply Nat.eqb_eq in B1. apply Below in B2. tauto.
Qed.

(* a new empty node changes nothing that is seen *)
Lemma holds_local h y d f s : holds h y d f s -> local_map h y = d.
Proof. intros (c & E & <- & _). exact (local_nth h y c E). Qed.
Lemma kept_local h h' y : kept h h' -> y < length h -> local_map h' y = local_map h y.
Proof.
  intros K Y. destruct (nth_error h y) as [c|] eqn:E; [|apply nth_error_None in E; lia].
  rewrite (local_nth h y c E). apply (holds_local h' y _ (fresh c) (last c)). apply K. exists c. repeat split. exact E.
Qed.
Lemma behind_In x n l y : In y (behind x n l) -> y = n \/ In y l.
Proof.
  induction l as [|z l IH]; cbn [behind]; [intros []|]. destruct (Nat.eqb z x).
  - intros [-> | [-> | I]]; [right; left; reflexivity | left; reflexivity | right; right; exact I].
  - intros [-> | I]; [right; left; reflexivity|]. destruct (IH I) as [-> | J]; [left; reflexivity | right; right; exact J].
Qed.
Lemma first_behind k x n (f g : nat -> list (key * value)) l : g n = [] -> (forall y, In y l -> g y = f y) -> first_map k (map g (behind x n l)) = first_map k (map f l).
Proof.
  intros Gn. induction l as [|z l IH]; intros G; [reflexivity|]. cbn [behind]. destruct (Nat.eqb z x).
  - cbn [map first_map]. rewrite (G z (or_introl eq_refl)), Gn. cbn [lookup]. destruct (look k (f z)); [reflexivity|].
    f_equal. apply map_ext_in. intros y I. apply G. right. exact I.
  - cbn [map first_map]. rewrite (G z (or_introl eq_refl)). destruct (look k (f z)); [reflexivity|]. apply IH. intros y I. apply G. right. exact I.
Qed.
Lemma insert_new_sees h x : linked h -> tidy h -> x < length h -> ~ under h x None ->
  exists h', insert_before h x None false = Ok (h', Some (length h), None) /\ linked h' /\ tidy h' /\ kept h h' /\ holds h' (length h) [] [] None /\
    (forall y l, chain h y l -> chain h' y (behind x (length h) l)) /\
    (forall y k v, y < length h -> (sees h' y k v <-> sees h y k v)).
Proof.
  intros L T X U. destruct (insert_new h x L X U) as (h' & E & L' & K & H & N & C). exists h'. split; [exact E|]. split; [exact L'|].
  assert (T' : tidy h').
  { intros y c Ec. assert (Y : y < length h') by (apply nth_error_Some; congruence). rewrite <- (local_nth h' y c Ec).
    destruct (Nat.eq_dec y (length h)) as [->|D].
    - rewrite (holds_local _ _ _ _ _ H). constructor.
    - rewrite (kept_local h h' y K) by lia. apply tidy_local. exact T. }
  split; [exact T'|]. split; [exact K|]. split; [exact H|]. split; [exact C|].
  intros y k v Y. destruct (linked_chain h y L Y) as [l Cl]. rewrite (sees_first h y l k v T Cl), (sees_first h' y _ k v T' (C y l Cl)).
  rewrite (first_behind k x (length h) (local_map h) (local_map h') l); [reflexivity | exact (holds_local _ _ _ _ _ H)|].
  intros z I. apply kept_local; [exact K | exact (chain_all_lt _ _ _ _ Cl I)].
Qed.
Lemma root_new h x : under h x None -> insert_before h x None false = Ok (h, None, None).
Proof. intros U. unfold insert_before. rewrite (proj1 (under_parent _ _ _ (under_lt _ _ _ U)) U). reflexivity. Qed.

Lemma root_spec h x l r : chain h x l -> (root h x = Ok r <-> exists a, l = a ++ [r]).
Proof.
  intros C. unfold root. rewrite (iter_up_chain _ _ _ C). cbn [bind]. destruct (chain_head _ _ _ C) as [t E].
  assert (N : l <> []) by (subst; discriminate). destruct (exists_last N) as (a & z & Ez). rewrite Ez, last_last. split.
  - intros H. injection H as <-. exists a. reflexivity.
  - intros (b & H). apply app_inj_tail in H. destruct H as [_ ->]. reflexivity.
Qed.

(* pop *)
Lemma pop_spec h x k : linked h -> tidy h -> x < length h -> (forall v, sees h x k v -> exists h', pop h x k = Ok (h', v) /\ delitem h x k = Ok h') /\ ((forall v, ~ sees h x k v) -> pop h x k = Err KeyError).
Proof.
  intros L T X. split.
  - intros v S. apply (getitem_sees h x k v L T X) in S. destruct (delitem_spec h x k L T X) as (h' & E & _). exists h'. split; [|exact E].
    unfold pop. rewrite S. cbn [bind]. rewrite E. reflexivity.
  - intros N. apply (getitem_missing h x k L T X) in N. unfold pop. rewrite N. reflexivity.
Qed.
Lemma pop_stays h x k p v : linked h -> tidy h -> under h x (Some p) -> sees h p k v -> exists h' w, pop h x k = Ok (h', w) /\ sees h' x k v.
Proof.
  intros L T U S. pose proof (under_lt _ _ _ U) as X. destruct (linked_up_chain h x p L U) as (l & Cp & Cx).
  assert (Sx : exists w, sees h x k w).
  { destruct U as (c & Ec & Uc). destruct (in_dec Nat.eq_dec k (map fst (data c))) as [J|J].
    - apply in_map_iff in J. destruct J as ((k', w) & <- & J). exists w. apply (Sees_own h x c); assumption.
    - exists v. apply (Sees_up h x c p); assumption. }
  destruct Sx as [w Sw]. destruct (proj1 (pop_spec h x k L T X) w Sw) as (h' & E & Ed). exists h', w. split; [exact E|].
  destruct (delitem_spec h x k L T X) as (g & Eg & _ & _ & _ & D & _). rewrite Ed in Eg. injection Eg as <-.
  apply D; [exists (x :: l); split; [exact Cx | left; reflexivity]|]. exists p. split; assumption.
Qed.

(* a value equal to the inherited one is not stored, so it follows the ancestor *)
Lemma not_pinned h x p k z z' : linked h -> tidy h -> plain h -> under h x (Some p) -> sees h p k (Plain z) -> ~ owns h x k -> z' <> z ->
  setitem h x k (GPlain z) = (h, Ok tt) /\ exists h', setitem h p k (GPlain z') = (h', Ok tt) /\ sees h' x k (Plain z').
Proof.
  intros L T P U S O D. pose proof (under_lt _ _ _ U) as X. destruct (linked_up_chain h x p L U) as (l & Cp & Cx). pose proof (chain_lt _ _ _ Cp) as Lp.
  assert (NS : forall y, ~ sees h y k Sub).
  { intros y Sy. remember Sub as v eqn:Ev. revert Ev. clear -Sy P. induction Sy as [x c k v E I|x c p k v E N U S IH]; intros Ev; [subst; exact (P x c k E I) | exact (IH Ev)]. }
  split.
  - assert (Sx : sees h x k (Plain z)).
    { destruct U as (c & Ec & Uc). apply (Sees_up h x c p); [exact Ec | | exact Uc | exact S]. intros I. apply O. exists c. split; assumption. }
    destruct (setitem_plain h x k z L T X (NS x)) as (g & E & [[-> _]|[_ N]]); [exact E | contradiction].
  - destruct (set_spec h p k z' L T Lp (NS p)) as (g & E & _ & _ & _ & C & _). exists g. split; [exact E|]. apply C.
    destruct (chain_head _ _ _ Cp) as [t ->]. exists [x], t. split; [exact Cx|]. intros w [<- | []]. exact O.
Qed.

(* the same with the new node at the top in words *)
Lemma fresh_top_cases h n np : n < length h -> np = fresh_top h n -> (under h n None -> np = Some (length h)) /\ (forall p, under h n (Some p) -> np = None).
Proof.
  intros N ->. unfold fresh_top. split.
  - intros U. rewrite (proj1 (under_parent _ _ _ N) U). reflexivity.
  - intros p U. rewrite (proj1 (under_parent _ _ _ N) U). reflexivity.
Qed.
Lemma remove_moves h x : linked h -> x < length h -> exists h' np, remove h x true = Ok (h', np) /\ linked h' /\ kept h h' /\
  (under h x None -> np = Some (length h)) /\ (forall p, under h x (Some p) -> np = None) /\ chain h' x [x] /\ (forall y, ~ under h' y (Some x)) /\
  forall y l t, y <> x -> chain h y l -> ends np x l t -> chain h' y (without x l ++ t).
Proof.
  intros L X. destruct (remove_chains h x L X) as (h' & np & E & L' & K & F & C & Lf & _ & W). destruct (fresh_top_cases h x np X F) as [F1 F2].
  exists h', np. repeat (split; [assumption|]). split; [|exact W]. intros y U. apply (Lf y). apply under_iff in U. tauto.
Qed.
Lemma before_moves h x n : linked h -> x < length h -> n < length h -> n <> x -> ~ under h x (Some n) ->
  exists h' np, insert_before h x (Some n) true = Ok (h', Some n, np) /\ linked h' /\ kept h h' /\
    (under h n None -> np = Some (length h)) /\ (forall p, under h n (Some p) -> np = None) /\
    (forall y l t, y <> n -> chain h y l -> ends np n l t -> chain h' y (behind x n (without n l ++ t))) /\
    (forall m t, chain h x (x :: m) -> ends np n m t -> chain h' n (n :: without n m ++ t)).
Proof.
  intros L X N D U. destruct (insert_before_chains h x n L X N D U) as (h' & np & E & L' & K & F & A & B). destruct (fresh_top_cases h n np N F) as [F1 F2].
  exists h', np. repeat (split; [assumption|]). exact B.
Qed.
Lemma after_moves h x n : linked h -> x < length h -> n < length h -> n <> x -> ~ under h n (Some x) ->
  exists h' np, insert_after h x (Some n) true = Ok (h', n, np) /\ linked h' /\ kept h h' /\
    (under h n None -> np = Some (length h)) /\ (forall p, under h n (Some p) -> np = None) /\
    (forall y l t, y <> n -> chain h y l -> ends np n l t -> chain h' y (before x n (without n l ++ t))) /\
    (forall l t, chain h x l -> ends np n l t -> chain h' n (n :: without n l ++ t)).
Proof.
  intros L X N D U. destruct (insert_after_chains h x n L X N D U) as (h' & np & E & L' & K & F & A & B). destruct (fresh_top_cases h n np N F) as [F1 F2].
  exists h', np. repeat (split; [assumption|]). exact B.
Qed.
