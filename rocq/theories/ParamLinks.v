(* The operations that rearrange the nodes, by the parent of each node afterwards. *)
From Verif Require Import Base BaseProofs ParamModel ParamSpec ParamProofs.
Local Open Scope nat_scope.

Definition moves (h h' : heap) (f : nat -> option nat) : Prop :=
  linked h' /\ kept h h' /\ length h' = length h /\ forall y, parent h' y = f y.

Lemma parent_out h y : length h <= y -> parent h y = None.
Proof. intros L. unfold parent. rewrite (proj2 (nth_error_None h y) L). reflexivity. Qed.
Lemma parent_newparent h x p y : x < length h -> p <> Some x -> parent h x <> Some x ->
  parent (newparent h x p) y = if Nat.eqb y x then p else parent h y.
Proof.
  intros X Px Qx. unfold parent. rewrite (nth_newparent h x p y X Px Qx).
  destruct (nth_error h y) as [c|] eqn:E; cbn [option_map up].
  - reflexivity.
  - destruct (Nat.eqb y x) eqn:Y; [|reflexivity]. apply Nat.eqb_eq in Y. subst. apply nth_error_None in E. lia.
Qed.

(* chains by the function of parents *)
Lemma chain_parent h y l : chain h y l -> match l with [] => False | z :: l' => z = y /\ y < length h /\ match l' with [] => parent h y = None | p :: _ => parent h y = Some p /\ chain h p l' end end.
Proof.
  intros [x U|x p m U C]; pose proof (under_lt _ _ _ U) as L; (split; [reflexivity|]; split; [exact L|]).
  - exact (proj1 (under_parent _ _ _ L) U).
  - destruct (chain_head _ _ _ C) as [t ->]. split; [exact (proj1 (under_parent _ _ _ L) U) | exact C].
Qed.
Lemma chain_top h x : x < length h -> parent h x = None -> chain h x [x].
Proof. intros L E. constructor. apply under_parent; assumption. Qed.
Lemma chain_step h x p l : x < length h -> parent h x = Some p -> chain h p l -> chain h x (x :: l).
Proof. intros L E C. apply (Chain_step _ _ p); [apply under_parent; assumption | exact C]. Qed.
Lemma chain_same h h' y l : length h <= length h' -> (forall z, In z l -> parent h' z = parent h z) -> chain h y l -> chain h' y l.
Proof.
  intros L H. apply chain_avoid. intros z p I U. pose proof (under_lt _ _ _ U) as Z.
  apply under_parent; [lia|]. rewrite (H z I). apply under_parent; assumption.
Qed.
Lemma linked_parent_chain h x p : linked h -> x < length h -> parent h x = Some p -> exists l, chain h p l /\ chain h x (x :: l) /\ ~ In x l.
Proof.
  intros L X E. apply (under_parent _ _ _ X) in E. destruct (linked_up_chain h x p L E) as (l & C & D). exists l.
  split; [exact C|]. split; [exact D|]. pose proof (chain_NoDup _ _ _ D) as N. inversion N. assumption.
Qed.

Lemma moves_newparent h x p : linked h -> x < length h -> (forall n, p = Some n -> exists l, chain h n l /\ ~ In x l) ->
  moves h (newparent h x p) (fun y => if Nat.eqb y x then p else parent h y).
Proof.
  intros L X P. pose proof (not_own_parent h x L X) as Q.
  assert (Px : p <> Some x). { intros E. destruct (P x E) as (l & C & N). apply N. exact (chain_self _ _ _ C). }
  split; [exact (linked_newparent h x p L X P)|]. split; [exact (kept_newparent h x p X Px Q)|].
  split; [apply newparent_length|]. intros y. exact (parent_newparent h x p y X Px Q).
Qed.
Lemma moves_same h (f : nat -> option nat) : linked h -> (forall y, parent h y = f y) -> moves h h f.
Proof. intros L F. split; [exact L|]. split; [apply kept_refl|]. split; [reflexivity | exact F]. Qed.
Lemma moves_ext h h' (f g : nat -> option nat) : (forall y, f y = g y) -> moves h h' f -> moves h h' g.
Proof. intros E (L & K & N & P). repeat (split; [assumption|]). intros y. rewrite P. apply E. Qed.

Lemma set_parent_top h x : linked h -> x < length h -> exists h', set_parent h x None = Ok h' /\ moves h h' (fun y => if Nat.eqb y x then None else parent h y).
Proof.
  intros L X. unfold set_parent. cbn [opt_eqb orb]. destruct (parent h x) as [q|] eqn:Q.
  - eexists. split; [reflexivity|]. apply moves_newparent; [exact L | exact X | discriminate].
  - exists h. split; [reflexivity|]. apply moves_same; [exact L|]. intros y. destruct (Nat.eqb y x) eqn:Y; [|reflexivity].
    apply Nat.eqb_eq in Y. subst. exact Q.
Qed.

Lemma set_parent_far h x n ln : linked h -> x < length h -> chain h n ln -> ~ In x ln ->
  exists h', set_parent h x (Some n) = Ok h' /\ moves h h' (fun y => if Nat.eqb y x then Some n else parent h y).
Proof.
  intros L X C N. unfold set_parent.
  assert (Nx : n <> x) by (intros ->; apply N; exact (chain_self _ _ _ C)).
  assert (E : opt_eqb (Some n) (Some x) = false) by (apply opt_eqb_neq; congruence).
  rewrite E. cbn [orb]. destruct (opt_eqb (Some n) (parent h x)) eqn:Q.
  - apply opt_eqb_spec in Q. exists h. split; [reflexivity|]. apply moves_same; [exact L|]. intros y. destruct (Nat.eqb y x) eqn:Y; [|reflexivity].
    apply Nat.eqb_eq in Y. subst. symmetry. exact Q.
  - destruct (iter_down_spec h x L X) as (d & D & S). rewrite D. cbn [bind].
    assert (I : existsb (Nat.eqb n) d = false).
    { apply existsb_notIn. intros I. apply S in I. destruct I as (m & Cm & I). rewrite (chain_fun _ _ _ _ Cm C) in I. contradiction. }
    rewrite I. eexists. split; [reflexivity|]. apply moves_newparent; [exact L | exact X|].
    intros k K. injection K as <-. exists ln. split; assumption.
Qed.

Lemma set_parent_below h x n ln : linked h -> chain h n ln -> In x ln -> n <> x ->
  exists h', set_parent h x (Some n) = Ok h' /\ moves h h' (fun y => if Nat.eqb y x then Some n else if Nat.eqb y n then parent h x else parent h y).
Proof.
  intros L C I Nx. unfold set_parent.
  pose proof (chain_all_lt _ _ _ _ C I) as X. pose proof (chain_lt _ _ _ C) as N.
  destruct (chain_In_chain _ _ _ _ C I) as (a & b & E & Cx). pose proof (chain_NoDup _ _ _ C) as ND. rewrite E in ND.
  assert (Ha : exists a', a = n :: a').
  { destruct (chain_head _ _ _ C) as [t T]. rewrite E in T. destruct a as [|z a]; cbn in T; injection T as T1 T2; [congruence|]. subst z. eexists. reflexivity. }
  destruct Ha as [a' ->].
  assert (Nb : ~ In n (x :: b)).
  { cbn [app] in ND. inversion ND as [|? ? A B]; subst. intros J. apply A. apply in_or_app. right. exact J. }
  assert (Xb : ~ In x b) by (apply NoDup_remove_2 in ND; intros J; apply ND; apply in_or_app; right; exact J).
  assert (E1 : opt_eqb (Some n) (Some x) = false) by (apply opt_eqb_neq; congruence).
  rewrite E1. cbn [orb].
  assert (E2 : opt_eqb (Some n) (parent h x) = false).
  { apply opt_eqb_neq. intros Q. pose proof (chain_parent _ _ _ Cx) as (_ & _ & K). destruct b as [|p b'].
    - congruence.
    - destruct K as [K _]. assert (p = n) by congruence. subst p. apply Nb. right. left. reflexivity. }
  rewrite E2. destruct (iter_down_spec h x L X) as (d & D & S). rewrite D. cbn [bind].
  assert (I' : existsb (Nat.eqb n) d = true) by (apply existsb_In; apply S; exists ln; split; assumption).
  rewrite I'. eexists. split; [reflexivity|].
  assert (Q : forall m, parent h x = Some m -> exists l, chain h m l /\ ~ In n l).
  { intros m M. pose proof (chain_parent _ _ _ Cx) as (_ & _ & K). destruct b as [|p b']; [congruence|]. destruct K as [K Kc].
    assert (p = m) by congruence. subst p. exists (m :: b'). split; [exact Kc|]. intros J. apply Nb. right. exact J. }
  pose proof (moves_newparent h n (parent h x) L N Q) as (L1 & K1 & Len1 & P1). set (h1 := newparent h n (parent h x)) in *.
  assert (C1 : chain h1 n (n :: b)).
  { pose proof (chain_parent _ _ _ Cx) as (_ & _ & K). destruct b as [|p b'].
    - apply chain_top; [lia|]. rewrite P1, Nat.eqb_refl. exact K.
    - destruct K as [K Kc]. apply (chain_step _ _ p); [lia | rewrite P1, Nat.eqb_refl; exact K |].
      apply (chain_same h); [lia | | exact Kc]. intros z J. rewrite P1. destruct (Nat.eqb z n) eqn:Z; [|reflexivity].
      apply Nat.eqb_eq in Z. subst z. exfalso. apply Nb. right. exact J. }
  assert (M2 : moves h1 (newparent h1 x (Some n)) (fun y => if Nat.eqb y x then Some n else parent h1 y)).
  { apply moves_newparent; [exact L1 | lia |]. intros k K. injection K as <-. exists (n :: b). split; [exact C1|].
    intros [J | J]; [congruence | contradiction]. }
  destruct M2 as (L2 & K2 & Len2 & P2). split; [exact L2|]. split; [exact (kept_trans _ _ _ K1 K2)|]. split; [congruence|].
  intros y. rewrite P2, P1. reflexivity.
Qed.

(* several nodes are moved under t *)
Lemma fold_far t lt cs h : linked h -> chain h t lt -> (forall c, In c cs -> c < length h /\ ~ In c lt) ->
  exists h', foldM (fun h c => set_parent h c (Some t)) h cs = Ok h' /\ moves h h' (fun y => if existsb (Nat.eqb y) cs then Some t else parent h y).
Proof.
  revert h. induction cs as [|c cs IH]; intros h L C H; cbn [foldM].
  - exists h. split; [reflexivity|]. apply moves_same; [exact L | reflexivity].
  - destruct (H c (or_introl eq_refl)) as [Lc Nc]. destruct (set_parent_far h c t lt L Lc C Nc) as (h1 & E1 & L1 & K1 & N1 & P1).
    rewrite E1. cbn [bind]. destruct (IH h1 L1) as (h2 & E2 & L2 & K2 & N2 & P2).
    + apply (chain_same h); [lia | | exact C]. intros z I. rewrite P1. destruct (Nat.eqb z c) eqn:Z; [|reflexivity].
      apply Nat.eqb_eq in Z. subst. contradiction.
    + intros d I. rewrite N1. apply H. right. exact I.
    + exists h2. split; [exact E2|]. split; [exact L2|]. split; [exact (kept_trans _ _ _ K1 K2)|]. split; [congruence|].
      intros y. rewrite P2, P1. cbn [existsb]. destruct (Nat.eqb y c) eqn:Y; cbn [orb]; [|reflexivity].
      destruct (existsb (Nat.eqb y) cs); reflexivity.
Qed.

(* a new node *)
Lemma nth_new h y : nth_error (h ++ [blank]) y = if Nat.eqb y (length h) then Some blank else nth_error h y.
Proof.
  destruct (Nat.eqb y (length h)) eqn:Y.
  - apply Nat.eqb_eq in Y. subst. rewrite nth_error_app2, Nat.sub_diag by lia. reflexivity.
  - apply Nat.eqb_neq in Y. destruct (Nat.lt_ge_cases y (length h)) as [L|L].
    + apply nth_error_app1. exact L.
    + rewrite (proj2 (nth_error_None h y) L). apply nth_error_None. rewrite app_length. cbn. lia.
Qed.
Lemma parent_new h y : parent (h ++ [blank]) y = parent h y.
Proof.
  unfold parent. rewrite nth_new. destruct (Nat.eqb y (length h)) eqn:Y; [|reflexivity].
  apply Nat.eqb_eq in Y. subst. rewrite (proj2 (nth_error_None h (length h)) (le_n _)). reflexivity.
Qed.
Lemma length_new h : length (h ++ [blank]) = S (length h).
Proof. rewrite app_length. cbn. lia. Qed.
Lemma kept_new h : kept h (h ++ [blank]).
Proof.
  intros x d f s (c & E & H). exists c. split; [|exact H]. rewrite nth_error_app1; [exact E|]. apply nth_error_Some. congruence.
Qed.
Lemma linked_new h : linked h -> linked (h ++ [blank]).
Proof.
  intros L. assert (U : forall y p, under (h ++ [blank]) y (Some p) <-> under h y (Some p)).
  { intros y p. unfold under. rewrite nth_new. destruct (Nat.eqb y (length h)) eqn:Y; [|reflexivity].
    apply Nat.eqb_eq in Y. subst. rewrite (proj2 (nth_error_None h (length h)) (le_n _)).
    split; intros (c & E & F); [injection E as <-|]; discriminate. }
  split.
  - intros x X. rewrite length_new in X. destruct (Nat.eq_dec x (length h)) as [->|Nx].
    + exists [length h]. apply chain_top; [rewrite length_new; lia|]. rewrite parent_new. apply parent_out. lia.
    + destruct (linked_chain h x L ltac:(lia)) as [l C]. exists l. apply (chain_same h); [rewrite length_new; lia | | exact C].
      intros z _. apply parent_new.
  - intros p c E. rewrite nth_new in E. destruct (Nat.eqb p (length h)) eqn:Y.
    + injection E as <-. apply Nat.eqb_eq in Y. subst p. split; [constructor|]. intros y. rewrite U. split; [intros []|].
      intros V. destruct (linked_up_chain h y _ L V) as (l & C & _). apply chain_lt in C. lia.
    + destruct (linked_down h p c L E) as [A B]. split; [exact A|]. intros y. rewrite U. apply B.
Qed.

Lemma branch_spec h x : linked h -> x < length h -> exists h', branch h x = Ok (h', length h) /\ linked h' /\ kept h h' /\ length h' = S (length h) /\
  forall y, parent h' y = if Nat.eqb y (length h) then Some x else parent h y.
Proof.
  intros L X. unfold branch, new_node. pose proof (linked_new h L) as L1. destruct (linked_chain h x L X) as [l C].
  assert (C1 : chain (h ++ [blank]) x l) by (apply (chain_same h); [rewrite length_new; lia | intros; apply parent_new | exact C]).
  destruct (set_parent_far (h ++ [blank]) (length h) x l L1) as (h' & E & L' & K & N & P).
  - rewrite length_new. lia.
  - exact C1.
  - intros I. pose proof (chain_all_lt _ _ _ _ C I). lia.
  - rewrite E. exists h'. split; [reflexivity|]. split; [exact L'|]. split; [exact (kept_trans _ _ _ (kept_new h) K)|]. split; [rewrite N; apply length_new|].
    intros y. rewrite P, parent_new. reflexivity.
Qed.

(* a single node is taken out *)
Lemma fold_children h x p : linked h -> x < length h -> parent h x = Some p ->
  exists h', foldM (fun h c => set_parent h c (Some p)) h (children h x) = Ok h' /\
    moves h h' (fun y => if opt_eqb (parent h y) (Some x) then Some p else parent h y).
Proof.
  intros L X P. destruct (linked_parent_chain h x p L X P) as (l & C & D & N).
  destruct (fold_far p l (children h x) h L C) as (h' & E & M).
  - intros c I. apply (linked_children _ _ _ L) in I. pose proof (under_lt _ _ _ I) as Lc. split; [exact Lc|].
    intros J. assert (K : chain h c (c :: x :: l)) by (econstructor; eassumption). apply chain_NoDup in K. inversion K as [|? ? A _]; subst.
    apply A. right. exact J.
  - exists h'. split; [exact E|]. apply (moves_ext _ _ _ _) with (2 := M). intros y.
    destruct (existsb (Nat.eqb y) (children h x)) eqn:I.
    + apply existsb_In in I. apply (linked_children _ _ _ L) in I. apply (under_parent _ _ _ (under_lt _ _ _ I)) in I. rewrite I.
      cbn [opt_eqb]. rewrite Nat.eqb_refl. reflexivity.
    + apply existsb_notIn in I. destruct (opt_eqb (parent h y) (Some x)) eqn:J; [|reflexivity].
      apply opt_eqb_spec in J. exfalso. apply I. apply (linked_children _ _ _ L).
      assert (Y : y < length h). { destruct (Nat.lt_ge_cases y (length h)) as [Y|Y]; [exact Y|]. rewrite (parent_out h y Y) in J. discriminate. }
      apply under_parent; assumption.
Qed.

Definition above (h : heap) (x : nat) : nat := match parent h x with Some p => p | None => length h end.
Lemma remove_single h x : linked h -> x < length h -> exists h' np, remove h x true = Ok (h', np) /\ linked h' /\ kept h h' /\
  np = (match parent h x with Some _ => None | None => Some (length h) end) /\
  length h' = (match parent h x with Some _ => length h | None => S (length h) end) /\
  forall y, parent h' y = if Nat.eqb y x then None else if opt_eqb (parent h y) (Some x) then Some (above h x) else parent h y.
Proof.
  intros L X. unfold remove, above. destruct (parent h x) as [p|] eqn:P.
  - cbn [bind]. rewrite P. destruct (fold_children h x p L X P) as (h1 & E1 & L1 & K1 & N1 & P1). rewrite E1. cbn [bind].
    destruct (set_parent_top h1 x L1) as (h2 & E2 & L2 & K2 & N2 & P2); [lia|]. rewrite E2. cbn [bind].
    exists h2, None. split; [reflexivity|]. split; [exact L2|]. split; [exact (kept_trans _ _ _ K1 K2)|]. split; [reflexivity|].
    split; [congruence|]. intros y. rewrite P2, P1. destruct (Nat.eqb y x); reflexivity.
  - cbn [new_node bind].
    destruct (set_parent_far (h ++ [blank]) x (length h) [length h] (linked_new h L)) as (h0 & E0 & L0 & K0 & N0 & P0).
    + rewrite length_new. lia.
    + apply chain_top; [rewrite length_new; lia | rewrite parent_new; apply parent_out; lia].
    + intros [I | []]. lia.
    + rewrite E0. cbn [bind].
      assert (Px : parent h0 x = Some (length h)) by (rewrite P0, Nat.eqb_refl; reflexivity). rewrite Px.
      destruct (fold_children h0 x (length h) L0) as (h1 & E1 & L1 & K1 & N1 & P1); [rewrite N0, length_new; lia | exact Px|]. rewrite E1. cbn [bind].
      destruct (set_parent_top h1 x L1) as (h2 & E2 & L2 & K2 & N2 & P2); [rewrite N1, N0, length_new; lia|]. rewrite E2. cbn [bind].
      exists h2, (Some (length h)). split; [reflexivity|]. split; [exact L2|].
      split; [exact (kept_trans _ _ _ (kept_new h) (kept_trans _ _ _ K0 (kept_trans _ _ _ K1 K2)))|]. split; [reflexivity|].
      split; [rewrite N2, N1, N0; apply length_new|]. intros y. rewrite P2, P1, P0. destruct (Nat.eqb y x); [reflexivity|]. rewrite parent_new. reflexivity.
Qed.
Lemma remove_branch h x : linked h -> x < length h -> exists h', remove h x false = Ok (h', None) /\ moves h h' (fun y => if Nat.eqb y x then None else parent h y).
Proof.
  intros L X. unfold remove. cbn [bind]. destruct (set_parent_top h x L X) as (h' & E & M). rewrite E. exists h'. split; [reflexivity | exact M].
Qed.

(* a single node is put before another *)
Lemma insert_before_single h x n : linked h -> x < length h -> n < length h -> n <> x -> parent h x <> Some n ->
  exists h' np, insert_before h x (Some n) true = Ok (h', Some n, np) /\ linked h' /\ kept h h' /\
    np = (match parent h n with Some _ => None | None => Some (length h) end) /\
    length h' = (match parent h n with Some _ => length h | None => S (length h) end) /\
    forall y, parent h' y = if Nat.eqb y x then Some n else if Nat.eqb y n then parent h x
                            else if opt_eqb (parent h y) (Some n) then Some (above h n) else parent h y.
Proof.
  intros L X N Nx Px. unfold insert_before.
  assert (E1 : opt_eqb (Some n) (parent h x) = false) by (apply opt_eqb_neq; congruence).
  assert (E2 : opt_eqb (Some n) (Some x) = false) by (apply opt_eqb_neq; congruence).
  rewrite E1, E2. cbn [orb].
  destruct (remove_single h n L N) as (h1 & np & R & L1 & K1 & Enp & N1 & P1). rewrite R. cbn [bind].
  assert (Len : length h <= length h1) by (rewrite N1; destruct (parent h n); lia).
  assert (Xn : Nat.eqb x n = false) by (apply Nat.eqb_neq; congruence).
  assert (Ax : parent h1 x = parent h x).
  { rewrite P1, Xn. destruct (opt_eqb (parent h x) (Some n)) eqn:J; [|reflexivity]. apply opt_eqb_spec in J. contradiction. }
  assert (An : parent h1 n = None) by (rewrite P1, Nat.eqb_refl; reflexivity).
  assert (Cn : chain h1 n [n]) by (apply chain_top; [lia | exact An]).
  destruct (set_parent_far h1 x n [n] L1) as (h2 & S2 & L2 & K2 & N2 & P2); [lia | exact Cn | intros [J | []]; congruence|].
  rewrite S2. cbn [bind]. rewrite Ax.
  assert (Pn2 : parent h2 n = None) by (rewrite P2, (proj2 (Nat.eqb_neq n x) Nx); exact An). rewrite Pn2.
  assert (Fin : exists h3, set_parent h2 n (parent h x) = Ok h3 /\ moves h2 h3 (fun y => if Nat.eqb y n then parent h x else parent h2 y)).
  { destruct (parent h x) as [k|] eqn:Kx.
    - destruct (linked_parent_chain h1 x k L1) as (l & Ck & _ & Xl); [lia | exact Ax|].
      apply (set_parent_far h2 n k l L2); [lia | |].
      + apply (chain_same h1); [lia | | exact Ck]. intros z I. rewrite P2. destruct (Nat.eqb z x) eqn:Z; [|reflexivity].
        apply Nat.eqb_eq in Z. subst. contradiction.
      + intros I. destruct (chain_In_chain _ _ _ _ Ck I) as (a & b & E & Cb).
        assert (b = []) by (pose proof (chain_fun _ _ _ _ Cb Cn) as F; injection F as ->; reflexivity). subst b.
        destruct a as [|z a].
        * destruct (chain_head _ _ _ Ck) as [t T]. rewrite E in T. injection T as <- _. congruence.
        * destruct (@exists_last _ (z :: a) ltac:(discriminate)) as (a' & w & Ea). rewrite Ea, <- app_assoc in E. cbn [app] in E.
          pose proof (chain_tail _ _ _ _ _ _ Ck E) as Cw. pose proof (chain_parent _ _ _ Cw) as (_ & _ & Pw & _).
          rewrite P1 in Pw. destruct (Nat.eqb w n) eqn:W; [discriminate|].
          destruct (opt_eqb (parent h w) (Some n)) eqn:V; [injection Pw as Pw|apply opt_eqb_neq in V; congruence].
          unfold above in Pw. pose proof (not_own_parent h n L N) as O. destruct (parent h n) as [q|]; [congruence | lia].
    - destruct (set_parent_top h2 n L2) as (h3 & S3 & M3); [lia|]. exists h3. split; [exact S3 | exact M3]. }
  destruct Fin as (h3 & S3 & L3 & K3 & N3 & P3). rewrite S3. cbn [bind].
  exists h3, np. split; [reflexivity|]. split; [exact L3|]. split; [exact (kept_trans _ _ _ K1 (kept_trans _ _ _ K2 K3))|].
  split; [exact Enp|]. split; [congruence|]. intros y. rewrite P3, P2, P1.
  destruct (Nat.eqb y n) eqn:Yn; [|reflexivity]. apply Nat.eqb_eq in Yn. subst y. rewrite (proj2 (Nat.eqb_neq n x) Nx). reflexivity.
Qed.

Section Before.
Variables (h : heap) (x n : nat) (lx ln : list nat).
Hypotheses (L : linked h) (Cx : chain h x lx) (Cn : chain h n ln) (Nx : n <> x) (Px : parent h x <> Some n).

Let E1 : opt_eqb (Some n) (parent h x) = false.
Proof. apply opt_eqb_neq. congruence. Qed.
Let E2 : opt_eqb (Some n) (Some x) = false.
Proof. apply opt_eqb_neq. congruence. Qed.
Let X : x < length h.
Proof. exact (chain_lt _ _ _ Cx). Qed.
Let N : n < length h.
Proof. exact (chain_lt _ _ _ Cn). Qed.
Let nx : Nat.eqb n x = false.
Proof. apply Nat.eqb_neq. exact Nx. Qed.

(* n is below x *)
Lemma before_own : In x ln -> exists h', insert_before h x (Some n) false = Ok (h', Some n, None) /\
  moves h h' (fun y => if Nat.eqb y x then Some n else if Nat.eqb y n then parent h x else parent h y).
Proof.
  intros I. unfold insert_before. rewrite E1, E2. cbn [orb bind].
  destruct (set_parent_below h x n ln L Cn I Nx) as (h1 & S1 & L1 & K1 & N1 & P1). rewrite S1. cbn [bind].
  assert (Pn : parent h1 n = parent h x) by (rewrite P1, nx, Nat.eqb_refl; reflexivity). rewrite Pn.
  destruct (parent h x) as [k|] eqn:K.
  - cbn [bind]. exists h1. split; [reflexivity|]. repeat (split; [assumption|]). exact P1.
  - destruct (set_parent_top h1 n L1) as (h2 & S2 & L2 & K2 & N2 & P2); [lia|]. rewrite S2. cbn [bind]. exists h2. split; [reflexivity|].
    split; [exact L2|]. split; [exact (kept_trans _ _ _ K1 K2)|]. split; [congruence|]. intros y. rewrite P2, P1.
    destruct (Nat.eqb y n) eqn:Y; [|reflexivity]. apply Nat.eqb_eq in Y. subst. rewrite nx. reflexivity.
Qed.
(* n is elsewhere, under another node *)
Lemma before_hanging q : ~ In x ln -> parent h n = Some q -> exists h', insert_before h x (Some n) false = Ok (h', Some n, None) /\
  moves h h' (fun y => if Nat.eqb y x then Some n else parent h y).
Proof.
  intros I Q. unfold insert_before. rewrite E1, E2. cbn [orb bind].
  destruct (set_parent_far h x n ln L X Cn I) as (h1 & S1 & L1 & K1 & N1 & P1). rewrite S1. cbn [bind].
  rewrite P1, nx, Q. cbn [bind]. exists h1. split; [reflexivity|]. repeat (split; [assumption|]). exact P1.
Qed.
(* n is at the top of another tree *)
Lemma before_root : ~ In x ln -> ~ In n lx -> parent h n = None -> exists h', insert_before h x (Some n) false = Ok (h', Some n, None) /\
  moves h h' (fun y => if Nat.eqb y x then Some n else if Nat.eqb y n then parent h x else parent h y).
Proof.
  intros I J Q. unfold insert_before. rewrite E1, E2. cbn [orb bind].
  destruct (set_parent_far h x n ln L X Cn I) as (h1 & S1 & L1 & K1 & N1 & P1). rewrite S1. cbn [bind].
  rewrite P1, nx, Q.
  assert (F : exists h2, set_parent h1 n (parent h x) = Ok h2 /\ moves h1 h2 (fun y => if Nat.eqb y n then parent h x else parent h1 y)).
  { destruct (parent h x) as [k|] eqn:K.
    - destruct (linked_parent_chain h x k L X K) as (l & Ck & Ckx & Xl).
      pose proof (chain_fun _ _ _ _ Cx Ckx) as El.
      apply (set_parent_far h1 n k l L1); [lia | |].
      + apply (chain_same h); [lia | | exact Ck]. intros z Iz. rewrite P1. destruct (Nat.eqb z x) eqn:Z; [|reflexivity].
        apply Nat.eqb_eq in Z. subst z. contradiction.
      + intros A. apply J. rewrite El. right. exact A.
    - apply set_parent_top; [exact L1 | lia]. }
  destruct F as (h2 & S2 & L2 & K2 & N2 & P2). rewrite S2. cbn [bind]. exists h2. split; [reflexivity|].
  split; [exact L2|]. split; [exact (kept_trans _ _ _ K1 K2)|]. split; [congruence|]. intros y. rewrite P2, P1.
  destruct (Nat.eqb y n) eqn:Y; [|reflexivity]. apply Nat.eqb_eq in Y. subst. rewrite nx. reflexivity.
Qed.
(* n is at the top of the tree of x, further up than the parent k of x *)
Lemma before_ancestor k : parent h n = None -> In n lx -> parent h x = Some k -> exists h', insert_before h x (Some n) false = Ok (h', Some n, None) /\
  moves h h' (fun y => if Nat.eqb y x then Some n else if Nat.eqb y n then Some k else if Nat.eqb y k then None else parent h y).
Proof.
  intros Q J K. unfold insert_before. rewrite E1, E2. cbn [orb bind].
  destruct (linked_parent_chain h x k L X K) as (l & Ck & Ckx & Xl). pose proof (chain_fun _ _ _ _ Cx Ckx) as El.
  assert (Jl : In n l) by (rewrite El in J; destruct J as [J | J]; [congruence | exact J]).
  assert (Eln : ln = [n]).
  { apply (chain_fun _ _ _ _ Cn). apply chain_top; assumption. }
  destruct (set_parent_far h x n ln L X Cn) as (h1 & S1 & L1 & K1 & N1 & P1); [rewrite Eln; intros [A | []]; congruence|]. rewrite S1. cbn [bind].
  rewrite P1, nx, Q, K.
  assert (Ck1 : chain h1 k l).
  { apply (chain_same h); [lia | | exact Ck]. intros z Iz. rewrite P1. destruct (Nat.eqb z x) eqn:Z; [|reflexivity].
    apply Nat.eqb_eq in Z. subst z. contradiction. }
  assert (Kn : k <> n) by congruence.
  destruct (set_parent_below h1 n k l L1 Ck1 Jl Kn) as (h2 & S2 & L2 & K2 & N2 & P2). rewrite S2. cbn [bind]. exists h2. split; [reflexivity|].
  split; [exact L2|]. split; [exact (kept_trans _ _ _ K1 K2)|]. split; [congruence|]. intros y. rewrite P2.
  assert (Pn1 : parent h1 n = None) by (rewrite P1, nx; exact Q). rewrite Pn1, P1.
  destruct (Nat.eqb y n) eqn:Yn.
  - apply Nat.eqb_eq in Yn. subst y. rewrite nx. reflexivity.
  - destruct (Nat.eqb y k) eqn:Yk; [|reflexivity]. apply Nat.eqb_eq in Yk. subst y.
    destruct (Nat.eqb k x) eqn:Z; [|reflexivity]. apply Nat.eqb_eq in Z. subst k. pose proof (not_own_parent h x L X). contradiction.
Qed.
End Before.

(* a single node is put after another *)
Lemma parent_In_children h y x : linked h -> (In y (children h x) <-> parent h y = Some x).
Proof.
  intros L. rewrite (linked_children _ _ _ L). split.
  - intros U. apply (under_parent _ _ _ (under_lt _ _ _ U)). exact U.
  - intros E. assert (Y : y < length h). { destruct (Nat.lt_ge_cases y (length h)) as [Y|Y]; [exact Y|]. rewrite (parent_out h y Y) in E. discriminate. }
    apply under_parent; assumption.
Qed.
Lemma child_not_above h x l c : linked h -> chain h x l -> parent h c = Some x -> ~ In c l.
Proof.
  intros L C P I. assert (Lc : c < length h) by (exact (chain_all_lt _ _ _ _ C I)).
  pose proof (chain_step h c x l Lc P C) as D. apply chain_NoDup in D. inversion D. contradiction.
Qed.

Lemma insert_after_single h x n : linked h -> x < length h -> n < length h -> n <> x -> parent h n <> Some x ->
  exists h' np, insert_after h x (Some n) true = Ok (h', n, np) /\ linked h' /\ kept h h' /\
    np = (match parent h n with Some _ => None | None => Some (length h) end) /\
    length h' = (match parent h n with Some _ => length h | None => S (length h) end) /\
    forall y, parent h' y = if Nat.eqb y n then Some x else if opt_eqb (parent h y) (Some x) then Some n
                            else if opt_eqb (parent h y) (Some n) then Some (above h n) else parent h y.
Proof.
  intros L X N Nx Pn. unfold insert_after.
  assert (E1 : opt_eqb (Some x) (parent h n) = false) by (apply opt_eqb_neq; congruence).
  rewrite E1, (proj2 (Nat.eqb_neq n x) Nx). cbn [orb].
  destruct (remove_single h n L N) as (h1 & np & R & L1 & K1 & Enp & N1 & P1). rewrite R. cbn [bind].
  assert (Len : length h <= length h1) by (rewrite N1; destruct (parent h n); lia).
  assert (An : parent h1 n = None) by (rewrite P1, Nat.eqb_refl; reflexivity).
  assert (Cn : chain h1 n [n]) by (apply chain_top; [lia | exact An]).
  assert (Ax : above h n <> x) by (unfold above; destruct (parent h n); [congruence | lia]).
  assert (Ch : forall y, In y (children h1 x) <-> parent h y = Some x).
  { intros y. rewrite (parent_In_children _ _ _ L1), P1. destruct (Nat.eqb y n) eqn:Y.
    - apply Nat.eqb_eq in Y. subst. split; [discriminate | congruence].
    - destruct (opt_eqb (parent h y) (Some n)) eqn:V; [|reflexivity]. apply opt_eqb_spec in V. rewrite V. split; congruence. }
  destruct (fold_far n [n] (children h1 x) h1 L1 Cn) as (h2 & S2 & L2 & K2 & N2 & P2).
  { intros c I. split.
    - apply (linked_children _ _ _ L1) in I. exact (under_lt _ _ _ I).
    - intros [<- | []]. apply Ch in I. contradiction. }
  rewrite S2. cbn [bind].
  destruct (linked_chain h1 x L1) as [l1 Cx1]; [lia|].
  assert (Cx2 : chain h2 x l1).
  { apply (chain_same h1); [lia | | exact Cx1]. intros z I. rewrite P2. destruct (existsb (Nat.eqb z) (children h1 x)) eqn:Z; [|reflexivity].
    apply existsb_In in Z. apply (parent_In_children _ _ _ L1) in Z. exfalso. exact (child_not_above _ _ _ _ L1 Cx1 Z I). }
  assert (Nl : ~ In n l1).
  { intros I. destruct (chain_In_chain _ _ _ _ Cx1 I) as (a & b & E & Cb).
    assert (b = []) by (pose proof (chain_fun _ _ _ _ Cb Cn) as F; injection F as ->; reflexivity). subst b.
    destruct a as [|z a].
    - destruct (chain_head _ _ _ Cx1) as [t T]. rewrite E in T. injection T as T _. congruence.
    - destruct (@exists_last _ (z :: a) ltac:(discriminate)) as (a' & w & Ea). rewrite Ea, <- app_assoc in E. cbn [app] in E.
      pose proof (chain_tail _ _ _ _ _ _ Cx1 E) as Cw. pose proof (chain_parent _ _ _ Cw) as (_ & _ & Pw & _).
      rewrite P1 in Pw. destruct (Nat.eqb w n) eqn:W; [discriminate|].
      destruct (opt_eqb (parent h w) (Some n)) eqn:V; [injection Pw as Pw|apply opt_eqb_neq in V; congruence].
      unfold above in Pw. pose proof (not_own_parent h n L N) as O. destruct (parent h n) as [q|]; [congruence | lia]. }
  destruct (set_parent_far h2 n x l1 L2) as (h3 & S3 & L3 & K3 & N3 & P3); [lia | exact Cx2 | exact Nl|].
  rewrite S3. cbn [bind]. exists h3, np. split; [reflexivity|]. split; [exact L3|].
  split; [exact (kept_trans _ _ _ K1 (kept_trans _ _ _ K2 K3))|]. split; [exact Enp|]. split; [congruence|].
  intros y. rewrite P3, P2. destruct (Nat.eqb y n) eqn:Yn; [reflexivity|].
  destruct (existsb (Nat.eqb y) (children h1 x)) eqn:Z.
  - apply existsb_In, Ch in Z. rewrite Z. cbn [opt_eqb]. rewrite Nat.eqb_refl. reflexivity.
  - apply existsb_notIn in Z. destruct (opt_eqb (parent h y) (Some x)) eqn:V.
    + apply opt_eqb_spec in V. exfalso. apply Z, Ch. exact V.
    + rewrite P1, Yn. reflexivity.
Qed.

(* a node with what is below it is put after another *)
Lemma fold_any x n cs h ln : linked h -> chain h n ln -> n <> x -> NoDup cs -> ~ In n cs -> (forall c, In c cs -> parent h c = Some x) ->
  exists h', foldM (fun h c => set_parent h c (Some n)) h cs = Ok h' /\
    moves h h' (fun y => if existsb (Nat.eqb y) cs then Some n else if Nat.eqb y n && existsb (fun c => existsb (Nat.eqb c) ln) cs then Some x else parent h y).
Proof.
  revert h ln. induction cs as [|c cs IH]; intros h ln L C Nx ND Ncs H; cbn [foldM].
  - exists h. split; [reflexivity|]. apply moves_same; [exact L|]. intros y. cbn [existsb]. rewrite andb_false_r. reflexivity.
  - pose proof (H c (or_introl eq_refl)) as Pc.
    assert (Lc : c < length h). { destruct (Nat.lt_ge_cases c (length h)) as [Y|Y]; [exact Y|]. rewrite (parent_out h c Y) in Pc. discriminate. }
    assert (NDc : ~ In c cs) by (inversion ND; assumption). assert (ND' : NoDup cs) by (inversion ND; assumption).
    assert (Nc : n <> c) by (intros ->; apply Ncs; left; reflexivity).
    assert (Nn : ~ In n cs) by (intros I; apply Ncs; right; exact I).
    destruct (existsb (Nat.eqb c) ln) eqn:I.
    + pose proof I as I'. apply existsb_In in I'.
      destruct (set_parent_below h c n ln L C I' Nc) as (h1 & S1 & L1 & K1 & N1 & P1). rewrite S1. cbn [bind].
      destruct (linked_parent_chain h c x L Lc Pc) as (l & Cx & Cc & Cl).
      assert (Nl : ~ In n (c :: l)).
      { destruct (chain_In_chain _ _ _ _ C I') as (a & b & E & Cb). pose proof (chain_fun _ _ _ _ Cb Cc) as F. injection F as ->.
        destruct (chain_head _ _ _ C) as [t T]. pose proof (chain_NoDup _ _ _ C) as ND2. rewrite E in T, ND2.
        destruct a as [|z a]; cbn in T; injection T as T1 T2; [congruence|]. subst z. cbn in ND2. inversion ND2 as [|? ? A _]; subst.
        intros J. apply A. apply in_or_app. right. exact J. }
      assert (C1 : chain h1 n (n :: l)).
      { apply (chain_step _ _ x); [pose proof (chain_lt _ _ _ C); lia | rewrite P1, (proj2 (Nat.eqb_neq n c) Nc), Nat.eqb_refl; exact Pc |].
        apply (chain_same h); [lia | | exact Cx]. intros z J. rewrite P1. destruct (Nat.eqb z c) eqn:Z1.
        - apply Nat.eqb_eq in Z1. subst. contradiction.
        - destruct (Nat.eqb z n) eqn:Z2; [|reflexivity]. apply Nat.eqb_eq in Z2. subst. exfalso. apply Nl. right. exact J. }
      destruct (fold_far n (n :: l) cs h1 L1 C1) as (h2 & S2 & L2 & K2 & N2 & P2).
      { intros d Id. pose proof (H d (or_intror Id)) as Pd.
        assert (Ld : d < length h). { destruct (Nat.lt_ge_cases d (length h)) as [Y|Y]; [exact Y|]. rewrite (parent_out h d Y) in Pd. discriminate. }
        split; [lia|]. intros [J | J]; [subst; contradiction|]. exact (child_not_above _ _ _ _ L Cx Pd J). }
      exists h2. split; [exact S2|]. split; [exact L2|]. split; [exact (kept_trans _ _ _ K1 K2)|]. split; [congruence|].
      intros y. rewrite P2, P1. cbn [existsb]. rewrite I. cbn [orb]. rewrite andb_true_r.
      destruct (Nat.eqb y c) eqn:Yc; cbn [orb]; [destruct (existsb (Nat.eqb y) cs); reflexivity|].
      destruct (existsb (Nat.eqb y) cs); [reflexivity|]. rewrite Pc. reflexivity.
    + pose proof I as I'. apply existsb_notIn in I'.
      destruct (set_parent_far h c n ln L Lc C I') as (h1 & S1 & L1 & K1 & N1 & P1). rewrite S1. cbn [bind].
      assert (C1 : chain h1 n ln).
      { apply (chain_same h); [lia | | exact C]. intros z J. rewrite P1. destruct (Nat.eqb z c) eqn:Z1; [|reflexivity].
        apply Nat.eqb_eq in Z1. subst. contradiction. }
      destruct (IH h1 ln L1 C1 Nx ND' Nn) as (h2 & S2 & L2 & K2 & N2 & P2).
      { intros d Id. rewrite P1. destruct (Nat.eqb d c) eqn:Z1; [|apply H; right; exact Id]. apply Nat.eqb_eq in Z1. subst. contradiction. }
      exists h2. split; [exact S2|]. split; [exact L2|]. split; [exact (kept_trans _ _ _ K1 K2)|]. split; [congruence|].
      intros y. rewrite P2, P1. cbn [existsb]. rewrite I. cbn [orb].
      destruct (Nat.eqb y c) eqn:Yc; cbn [orb].
      * destruct (existsb (Nat.eqb y) cs); [reflexivity|]. apply Nat.eqb_eq in Yc. subst y. rewrite (proj2 (Nat.eqb_neq c n)) by congruence. reflexivity.
      * reflexivity.
Qed.

Lemma insert_after_branch h x n lx : linked h -> chain h x lx -> n < length h -> n <> x -> parent h n <> Some x ->
  exists h', insert_after h x (Some n) false = Ok (h', n, None) /\
    moves h h' (fun y => if Nat.eqb y n then Some x else if opt_eqb (parent h y) (Some x) then Some n
                         else if Nat.eqb y x && existsb (Nat.eqb n) lx then parent h n else parent h y).
Proof.
  intros L Cx N Nx Pn. unfold insert_after.
  assert (E1 : opt_eqb (Some x) (parent h n) = false) by (apply opt_eqb_neq; congruence).
  rewrite E1, (proj2 (Nat.eqb_neq n x) Nx). cbn [orb bind].
  destruct (linked_chain h n L N) as [ln Cn]. pose proof (chain_lt _ _ _ Cx) as X.
  assert (Ch : forall c, In c (children h x) <-> parent h c = Some x) by (intros c; apply parent_In_children; exact L).
  destruct (fold_any x n (children h x) h ln L Cn Nx (children_NoDup h x L)) as (h1 & S1 & L1 & K1 & N1 & P1).
  { intros I. apply Ch in I. contradiction. }
  { intros c I. apply Ch. exact I. }
  rewrite S1. cbn [bind].
  assert (Q : forall y, existsb (Nat.eqb y) (children h x) = opt_eqb (parent h y) (Some x)).
  { intros y. apply Bool.eq_iff_eq_true. rewrite existsb_In, Ch, opt_eqb_spec. reflexivity. }
  assert (Xn : In x ln <-> existsb (fun c => existsb (Nat.eqb c) ln) (children h x) = true).
  { rewrite existsb_exists. split.
    - intros I. destruct (chain_In_chain _ _ _ _ Cn I) as (a & b & E & Cb). destruct a as [|z a].
      + destruct (chain_head _ _ _ Cn) as [t T]. rewrite E in T. injection T as T _. congruence.
      + destruct (@exists_last _ (z :: a) ltac:(discriminate)) as (a' & w & Ea). rewrite Ea, <- app_assoc in E. cbn [app] in E.
        pose proof (chain_tail _ _ _ _ _ _ Cn E) as Cw. pose proof (chain_parent _ _ _ Cw) as (_ & _ & Pw & _).
        exists w. split; [apply Ch; exact Pw|]. apply existsb_In. rewrite E. apply in_or_app. right. left. reflexivity.
    - intros (c & I & J). apply existsb_In in J. apply Ch in I. destruct (chain_In_chain _ _ _ _ Cn J) as (a & b & E & Cb).
      pose proof (chain_parent _ _ _ Cb) as (_ & _ & K). destruct b as [|p b]; [congruence|]. destruct K as [K _].
      assert (p = x) by congruence. subst p. rewrite E. apply in_or_app. right. right. left. reflexivity. }
  assert (Lx : forall z, In z lx -> parent h z <> Some x).
  { intros z I E. exact (child_not_above _ _ _ _ L Cx E I). }
  assert (Xl : forall A, n = A -> In x ln -> ~ In n lx).
  { intros _ _ I J. destruct (chain_In_chain _ _ _ _ Cx J) as (a & b & E & Cb). pose proof (chain_fun _ _ _ _ Cn Cb) as F. rewrite F in I.
    destruct I as [I | I]; [congruence|]. destruct (chain_head _ _ _ Cx) as [t T]. pose proof (chain_NoDup _ _ _ Cx) as ND. rewrite E in T, ND.
    destruct a as [|z a]; cbn in T; injection T as T1 T2; [congruence|]. subst z. cbn in ND. inversion ND as [|? ? A _]; subst.
    apply A. apply in_or_app. right. right. exact I. }
  destruct (existsb (fun c => existsb (Nat.eqb c) ln) (children h x)) eqn:B.
  - pose proof (proj2 Xn eq_refl) as I. pose proof (Xl n eq_refl I) as J.
    assert (Pn1 : parent h1 n = Some x).
    { rewrite P1, Q, Nat.eqb_refl. cbn [andb]. destruct (opt_eqb (parent h n) (Some x)) eqn:V; [apply opt_eqb_spec in V; contradiction | reflexivity]. }
    unfold set_parent. rewrite Pn1. cbn [opt_eqb]. rewrite (Nat.eqb_refl x), orb_true_r. cbn [bind]. exists h1. split; [reflexivity|].
    repeat (split; [assumption|]). intros y. rewrite P1, Q, (proj2 (existsb_notIn n lx) J), !andb_false_r, ?andb_true_r.
    destruct (Nat.eqb y n) eqn:Y; [|reflexivity]. apply Nat.eqb_eq in Y. subst.
    destruct (opt_eqb (parent h n) (Some x)) eqn:V; [apply opt_eqb_spec in V; contradiction | reflexivity].
  - assert (I : ~ In x ln) by (intros I; apply Xn in I; discriminate).
    assert (P1' : forall y, parent h1 y = if opt_eqb (parent h y) (Some x) then Some n else parent h y).
    { intros y. rewrite P1, Q, andb_false_r. reflexivity. }
    assert (Cx1 : chain h1 x lx).
    { apply (chain_same h); [lia | | exact Cx]. intros z J. rewrite P1'. destruct (opt_eqb (parent h z) (Some x)) eqn:V; [|reflexivity].
      apply opt_eqb_spec in V. exfalso. exact (Lx z J V). }
    assert (Pn1 : parent h1 n = parent h n).
    { rewrite P1'. destruct (opt_eqb (parent h n) (Some x)) eqn:V; [apply opt_eqb_spec in V; contradiction | reflexivity]. }
    destruct (existsb (Nat.eqb n) lx) eqn:J.
    + apply existsb_In in J. destruct (set_parent_below h1 n x lx L1 Cx1 J) as (h2 & S2 & L2 & K2 & N2 & P2); [congruence|].
      rewrite S2. cbn [bind]. exists h2. split; [reflexivity|]. split; [exact L2|]. split; [exact (kept_trans _ _ _ K1 K2)|]. split; [congruence|].
      intros y. rewrite P2, Pn1, P1', andb_true_r. destruct (Nat.eqb y n); [reflexivity|]. destruct (Nat.eqb y x) eqn:Y; [|reflexivity].
      apply Nat.eqb_eq in Y. subst y. destruct (opt_eqb (parent h x) (Some x)) eqn:V; [|reflexivity]. apply opt_eqb_spec in V.
      pose proof (not_own_parent h x L X). contradiction.
    + apply existsb_notIn in J. destruct (set_parent_far h1 n x lx L1) as (h2 & S2 & L2 & K2 & N2 & P2); [lia | exact Cx1 | exact J|].
      rewrite S2. cbn [bind]. exists h2. split; [reflexivity|]. split; [exact L2|]. split; [exact (kept_trans _ _ _ K1 K2)|]. split; [congruence|].
      intros y. rewrite P2, P1', andb_false_r. reflexivity.
Qed.
