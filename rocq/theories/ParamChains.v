(* The ways to the top after a single node was taken out or put in. *)
From Verif Require Import Base BaseProofs ParamModel ParamSpec ParamProofs ParamLinks.
Local Open Scope nat_scope.

Definition extra (h : heap) (n : nat) (l : list nat) : list nat :=
  match parent h n with Some _ => [] | None => if existsb (Nat.eqb n) l then [length h] else [] end.

Lemma without_same n l : ~ In n l -> without n l = l.
Proof.
  induction l as [|y l IH]; intros N; [reflexivity|]. cbn. destruct (Nat.eqb y n) eqn:Y.
  - apply Nat.eqb_eq in Y. subst. exfalso. apply N. left. reflexivity.
  - cbn. f_equal. apply IH. intros I. apply N. right. exact I.
Qed.
Lemma without_cons n y l : without n (y :: l) = if Nat.eqb y n then without n l else y :: without n l.
Proof. cbn. destruct (Nat.eqb y n); reflexivity. Qed.

Lemma chains_without h h' x : linked h -> x < length h -> length h' = (match parent h x with Some _ => length h | None => S (length h) end) ->
  (forall y, parent h' y = if Nat.eqb y x then None else if opt_eqb (parent h y) (Some x) then Some (above h x) else parent h y) ->
  forall y l, y <> x -> chain h y l -> chain h' y (without x l ++ extra h x l).
Proof.
  intros L X Len P y l Nx C.
  assert (Le : length h <= length h') by (rewrite Len; destruct (parent h x); lia).
  induction C as [y U|y p l U C IH]; pose proof (under_lt _ _ _ U) as Y; apply (under_parent _ _ _ Y) in U.
  - rewrite without_cons, (proj2 (Nat.eqb_neq y x) Nx). cbn [without filter]. unfold extra. cbn [existsb].
    rewrite (proj2 (Nat.eqb_neq x y)) by congruence. cbn [orb].
    assert (E : match parent h x with Some _ => [] | None => [] end = @nil nat) by (destruct (parent h x); reflexivity). rewrite E. cbn [app].
    apply chain_top; [lia|]. rewrite P, (proj2 (Nat.eqb_neq y x) Nx), U. reflexivity.
  - rewrite without_cons, (proj2 (Nat.eqb_neq y x) Nx).
    assert (E : extra h x (y :: l) = extra h x l).
    { unfold extra. cbn [existsb]. rewrite (proj2 (Nat.eqb_neq x y)) by congruence. reflexivity. }
    rewrite E. cbn [app]. destruct (Nat.eq_dec p x) as [->|Np].
    + destruct (chain_head _ _ _ C) as [t ->]. rewrite without_cons, Nat.eqb_refl.
      assert (Nt : ~ In x t) by (pose proof (chain_NoDup _ _ _ C) as ND; inversion ND; assumption).
      rewrite (without_same x t Nt). pose proof (chain_parent _ _ _ C) as (_ & _ & K).
      assert (Py : parent h' y = Some (above h x)).
      { rewrite P, (proj2 (Nat.eqb_neq y x) Nx), U. cbn [opt_eqb]. rewrite Nat.eqb_refl. reflexivity. }
      apply (chain_step _ _ (above h x)); [lia | exact Py|].
      destruct t as [|q t].
      * unfold extra, above. rewrite K. cbn [existsb]. rewrite Nat.eqb_refl. cbn [orb app].
        apply chain_top; [rewrite Len, K; lia|]. rewrite P, (parent_out h (length h)) by lia.
        destruct (Nat.eqb (length h) x); reflexivity.
      * destruct K as [K Kc]. unfold extra, above. rewrite K, app_nil_r.
        apply (chain_same h); [exact Le | | exact Kc]. intros z I. rewrite P.
        destruct (Nat.eqb z x) eqn:Z; [apply Nat.eqb_eq in Z; subst; contradiction|].
        destruct (opt_eqb (parent h z) (Some x)) eqn:V; [|reflexivity]. apply opt_eqb_spec in V. exfalso.
        apply (child_not_above _ _ _ _ L C V). right. exact I.
    + apply (chain_step _ _ p); [lia | | exact (IH Np)].
      rewrite P, (proj2 (Nat.eqb_neq y x) Nx), U. cbn [opt_eqb]. rewrite (proj2 (Nat.eqb_neq p x) Np). reflexivity.
Qed.

(* no node hangs under n *)
Definition leaf (h : heap) (n : nat) : Prop := forall y, parent h y <> Some n.
Lemma leaf_chain h n y l : leaf h n -> chain h y l -> y <> n -> ~ In n l.
Proof.
  intros F C. induction C as [y U|y p l U C IH]; intros N.
  - intros [I | []]. congruence.
  - intros [I | I]; [congruence|]. revert I. apply IH. intros ->. apply (F y).
    apply (under_parent _ _ _ (under_lt _ _ _ U)). exact U.
Qed.

Lemma chains_behind h h' x n : linked h -> x <> n -> n < length h -> leaf h n -> length h <= length h' ->
  (forall y, parent h' y = if Nat.eqb y x then Some n else if Nat.eqb y n then parent h x else parent h y) ->
  (forall y l, y <> n -> chain h y l -> chain h' y (behind x n l)) /\
  (forall t, chain h x (x :: t) -> chain h' n (n :: t)).
Proof.
  intros L Nx N F Le P.
  assert (T : forall t, chain h x (x :: t) -> chain h' n (n :: t)).
  { intros t C. pose proof (chain_NoDup _ _ _ C) as ND. pose proof (leaf_chain _ _ _ _ F C Nx) as Nl.
    pose proof (chain_parent _ _ _ C) as (_ & X & K). destruct t as [|p t].
    - apply chain_top; [lia|]. rewrite P, (proj2 (Nat.eqb_neq n x)), Nat.eqb_refl by congruence. exact K.
    - destruct K as [K Kc]. apply (chain_step _ _ p); [lia | rewrite P, (proj2 (Nat.eqb_neq n x)), Nat.eqb_refl by congruence; exact K|].
      apply (chain_same h); [exact Le | | exact Kc]. intros z I. rewrite P. destruct (Nat.eqb z x) eqn:Z.
      + apply Nat.eqb_eq in Z. subst. inversion ND. contradiction.
      + destruct (Nat.eqb z n) eqn:Z2; [|reflexivity]. apply Nat.eqb_eq in Z2. subst. exfalso. apply Nl. right. exact I. }
  split; [|exact T]. intros y l Ny C.
  induction C as [y U|y p l U C IH]; pose proof (under_lt _ _ _ U) as Y.
  - destruct (Nat.eq_dec y x) as [->|Nyx].
    + cbn [behind]. rewrite Nat.eqb_refl. apply (chain_step _ _ n); [lia | rewrite P, Nat.eqb_refl; reflexivity|].
      apply T. constructor. exact U.
    + cbn [behind]. rewrite (proj2 (Nat.eqb_neq y x) Nyx). apply chain_top; [lia|].
      rewrite P, (proj2 (Nat.eqb_neq y x) Nyx), (proj2 (Nat.eqb_neq y n) Ny). apply under_parent; assumption.
  - destruct (Nat.eq_dec y x) as [->|Nyx].
    + cbn [behind]. rewrite Nat.eqb_refl. apply (chain_step _ _ n); [lia | rewrite P, Nat.eqb_refl; reflexivity|].
      apply T. econstructor; eassumption.
    + cbn [behind]. rewrite (proj2 (Nat.eqb_neq y x) Nyx). apply (under_parent _ _ _ Y) in U.
      apply (chain_step _ _ p); [lia | rewrite P, (proj2 (Nat.eqb_neq y x) Nyx), (proj2 (Nat.eqb_neq y n) Ny); exact U|].
      apply IH. intros ->. exact (F y U).
Qed.

Lemma before_cons x n z l : before x n (z :: l) = z :: ahead x n l.
Proof. reflexivity. Qed.

Lemma chains_before h h' x n : linked h -> x <> n -> n < length h -> leaf h n -> length h <= length h' ->
  (forall y, parent h' y = if Nat.eqb y n then Some x else if opt_eqb (parent h y) (Some x) then Some n else parent h y) ->
  (forall y l, y <> n -> chain h y l -> chain h' y (before x n l)) /\
  (forall l, chain h x l -> chain h' n (n :: l)).
Proof.
  intros L Nx N F Le P.
  assert (S : forall l, chain h x l -> chain h' x l).
  { intros l C. apply (chain_same h); [exact Le | | exact C]. intros z I. rewrite P. destruct (Nat.eqb z n) eqn:Z.
    - apply Nat.eqb_eq in Z. subst. exfalso. exact (leaf_chain _ _ _ _ F C Nx I).
    - destruct (opt_eqb (parent h z) (Some x)) eqn:V; [|reflexivity]. apply opt_eqb_spec in V. exfalso. exact (child_not_above _ _ _ _ L C V I). }
  assert (T : forall l, chain h x l -> chain h' n (n :: l)).
  { intros l C. apply (chain_step _ _ x); [lia | rewrite P, Nat.eqb_refl; reflexivity | exact (S l C)]. }
  split; [|exact T]. intros y l Ny C.
  induction C as [y U|y p l U C IH]; pose proof (under_lt _ _ _ U) as Y; apply (under_parent _ _ _ Y) in U.
  - cbn. apply chain_top; [lia|]. rewrite P, (proj2 (Nat.eqb_neq y n) Ny), U. reflexivity.
  - rewrite before_cons. destruct (Nat.eq_dec p x) as [->|Np].
    + destruct (chain_head _ _ _ C) as [t ->]. cbn [ahead]. rewrite Nat.eqb_refl.
      apply (chain_step _ _ n); [lia | rewrite P, (proj2 (Nat.eqb_neq y n) Ny), U; cbn [opt_eqb]; rewrite Nat.eqb_refl; reflexivity|].
      apply T. exact C.
    + assert (Npn : p <> n) by (intros ->; exact (F y U)). specialize (IH Npn).
      destruct (chain_head _ _ _ C) as [t ->]. rewrite before_cons in IH. cbn [ahead]. rewrite (proj2 (Nat.eqb_neq p x) Np).
      apply (chain_step _ _ p); [lia | rewrite P, (proj2 (Nat.eqb_neq y n) Ny), U; cbn [opt_eqb]; rewrite (proj2 (Nat.eqb_neq p x) Np); reflexivity | exact IH].
Qed.

(* ---- the operations ---- *)
Definition fresh_top (h : heap) (n : nat) : option nat := match parent h n with Some _ => None | None => Some (length h) end.
Lemma extra_ends h n l : ends (fresh_top h n) n l (extra h n l).
Proof.
  unfold ends, fresh_top, extra. destruct (parent h n); [reflexivity|]. destruct (existsb (Nat.eqb n) l) eqn:E.
  - apply existsb_In in E. split; [reflexivity | contradiction].
  - apply existsb_notIn in E. split; [contradiction | reflexivity].
Qed.
Lemma ends_fun np n l t t' : ends np n l t -> ends np n l t' -> t = t'.
Proof.
  unfold ends. destruct np as [m|]; [|congruence]. intros [A B] [C D]. destruct (in_dec Nat.eq_dec n l) as [I|I].
  - rewrite (A I), (C I). reflexivity.
  - rewrite (B I), (D I). reflexivity.
Qed.

Lemma under_None_iff h n : n < length h -> (under h n None <-> parent h n = None).
Proof. intros N. apply under_parent. exact N. Qed.

Lemma remove_chains h x : linked h -> x < length h -> exists h' np, remove h x true = Ok (h', np) /\ linked h' /\ kept h h' /\
  np = fresh_top h x /\ chain h' x [x] /\ leaf h' x /\ length h <= length h' /\
  forall y l t, y <> x -> chain h y l -> ends np x l t -> chain h' y (without x l ++ t).
Proof.
  intros L X. destruct (remove_single h x L X) as (h' & np & R & L' & K & Enp & Len & P).
  exists h', np. split; [exact R|]. split; [exact L'|]. split; [exact K|]. split; [exact Enp|].
  assert (Le : length h <= length h') by (rewrite Len; destruct (parent h x); lia).
  split; [apply chain_top; [lia | rewrite P, Nat.eqb_refl; reflexivity]|]. split.
  { intros y E. rewrite P in E. destruct (Nat.eqb y x); [discriminate|]. destruct (opt_eqb (parent h y) (Some x)) eqn:V.
    - injection E as E. unfold above in E. pose proof (not_own_parent h x L X). destruct (parent h x) as [q|]; [congruence | lia].
    - apply opt_eqb_neq in V. contradiction. }
  split; [exact Le|].
  intros y l t Ny C E. assert (Et : t = extra h x l) by (apply (ends_fun np x l); [exact E | rewrite Enp; apply extra_ends]). rewrite Et.
  exact (chains_without h h' x L X Len P y l Ny C).
Qed.

Lemma insert_before_chains h x n : linked h -> x < length h -> n < length h -> n <> x -> ~ under h x (Some n) ->
  exists h' np, insert_before h x (Some n) true = Ok (h', Some n, np) /\ linked h' /\ kept h h' /\ np = fresh_top h n /\
    (forall y l t, y <> n -> chain h y l -> ends np n l t -> chain h' y (behind x n (without n l ++ t))) /\
    (forall m t, chain h x (x :: m) -> ends np n m t -> chain h' n (n :: without n m ++ t)).
Proof.
  intros L X N Nx U. assert (Px : parent h x <> Some n) by (intros E; apply U; apply under_parent; assumption).
  destruct (insert_before_single h x n L X N Nx Px) as (h' & np & R & L' & K & Enp & Len & P).
  destruct (remove_single h n L N) as (h1 & np1 & R1 & L1 & K1 & Enp1 & Len1 & P1).
  assert (N1 : np1 = np) by congruence. rewrite N1 in R1. clear N1 Enp1 np1.
  destruct (remove_chains h n L N) as (h1' & np' & R1' & _ & _ & _ & _ & F & Le1 & W).
  rewrite R1 in R1'. injection R1' as <- E2. rewrite <- E2 in W. clear E2 np'.
  assert (Xn : Nat.eqb x n = false) by (apply Nat.eqb_neq; congruence).
  assert (Ax : parent h1 x = parent h x).
  { rewrite P1, Xn. destruct (opt_eqb (parent h x) (Some n)) eqn:V; [|reflexivity]. apply opt_eqb_spec in V. contradiction. }
  destruct (chains_behind h1 h' x n L1) as [B T]; [congruence | lia | exact F | rewrite Len, Len1; lia | |].
  { intros y. rewrite P, Ax, P1. destruct (Nat.eqb y x); [reflexivity|]. destruct (Nat.eqb y n); reflexivity. }
  exists h', np. split; [exact R|]. split; [exact L'|]. split; [exact K|]. split; [exact Enp|]. split.
  - intros y l t Ny C E. apply B; [exact Ny|]. exact (W y l t Ny C E).
  - intros m t C E. apply T.
    assert (E' : ends np n (x :: m) t).
    { revert E. unfold ends. destruct np as [w|]; [|tauto]. intros [A B']. split; intros I; [apply A | apply B'].
      - destruct I as [I | I]; [congruence | exact I].
      - intros J. apply I. right. exact J. }
    pose proof (W x (x :: m) t ltac:(congruence) C E') as V. rewrite without_cons, Xn in V. exact V.
Qed.

Lemma insert_after_chains h x n : linked h -> x < length h -> n < length h -> n <> x -> ~ under h n (Some x) ->
  exists h' np, insert_after h x (Some n) true = Ok (h', n, np) /\ linked h' /\ kept h h' /\ np = fresh_top h n /\
    (forall y l t, y <> n -> chain h y l -> ends np n l t -> chain h' y (before x n (without n l ++ t))) /\
    (forall l t, chain h x l -> ends np n l t -> chain h' n (n :: without n l ++ t)).
Proof.
  intros L X N Nx U. assert (Pn : parent h n <> Some x) by (intros E; apply U; apply under_parent; assumption).
  destruct (insert_after_single h x n L X N Nx Pn) as (h' & np & R & L' & K & Enp & Len & P).
  destruct (remove_single h n L N) as (h1 & np1 & R1 & L1 & K1 & Enp1 & Len1 & P1).
  assert (N1 : np1 = np) by congruence. rewrite N1 in R1. clear N1 Enp1 np1.
  destruct (remove_chains h n L N) as (h1' & np' & R1' & _ & _ & _ & _ & F & Le1 & W).
  rewrite R1 in R1'. injection R1' as <- E2. rewrite <- E2 in W. clear E2 np'.
  assert (Ax : above h n <> x) by (unfold above; destruct (parent h n); [congruence | lia]).
  destruct (chains_before h1 h' x n L1) as [B T]; [congruence | lia | exact F | rewrite Len, Len1; lia | |].
  { intros y. rewrite P, P1. destruct (Nat.eqb y n) eqn:Y; [reflexivity|].
    destruct (opt_eqb (parent h y) (Some n)) eqn:V.
    - apply opt_eqb_spec in V. rewrite V. cbn [opt_eqb]. rewrite (proj2 (Nat.eqb_neq n x) Nx), (proj2 (Nat.eqb_neq _ _) Ax). reflexivity.
    - reflexivity. }
  exists h', np. split; [exact R|]. split; [exact L'|]. split; [exact K|]. split; [exact Enp|]. split.
  - intros y l t Ny C E. apply B; [exact Ny|]. exact (W y l t Ny C E).
  - intros l t C E. apply T. exact (W x l t ltac:(congruence) C E).
Qed.

(* a new node before another *)
Lemma insert_new h x : linked h -> x < length h -> ~ under h x None ->
  exists h', insert_before h x None false = Ok (h', Some (length h), None) /\ linked h' /\ kept h h' /\
    holds h' (length h) [] [] None /\ length h' = S (length h) /\
    (forall y l, chain h y l -> chain h' y (behind x (length h) l)).
Proof.
  intros L X U. set (n := length h). set (g := h ++ [blank]).
  assert (Lg : linked g) by (apply linked_new; exact L).
  assert (Pg : forall y, parent g y = parent h y) by (intros; apply parent_new).
  assert (Leng : length g = S n) by apply length_new.
  assert (Ex : exists k, parent h x = Some k).
  { destruct (parent h x) as [k|] eqn:E; [exists k; reflexivity|]. exfalso. apply U. apply under_parent; assumption. }
  destruct Ex as [k Kx].
  assert (Gn : parent g n = None) by (rewrite Pg; apply parent_out; unfold n; lia).
  destruct (linked_chain h x L X) as [lx Cx].
  assert (Cgx : chain g x lx) by (apply (chain_same h); [lia | intros; apply Pg | exact Cx]).
  assert (Cgn : chain g n [n]) by (apply chain_top; [lia | exact Gn]).
  assert (Nx : n <> x) by (unfold n; lia).
  assert (Kn : k < n).
  { destruct (linked_parent_chain h x k L X Kx) as (l & C & _ & _). exact (chain_lt _ _ _ C). }
  assert (Pxn : parent g x <> Some n) by (rewrite Pg, Kx; intros E; injection E as E; lia).
  assert (Nl : ~ In n lx). { intros I. pose proof (chain_all_lt _ _ _ _ Cx I). unfold n in *. lia. }
  destruct (before_root g x n lx [n] Lg Cgx Cgn Nx Pxn) as (h' & E & L' & K & Len & P); [intros [I | []]; congruence | exact Nl | exact Gn|].
  assert (E' : insert_before h x None false = Ok (h', Some n, None)).
  { rewrite <- E. unfold insert_before. rewrite Kx. rewrite Pg in *. rewrite Kx in *. cbn [opt_eqb orb]. cbn [new_node].
    rewrite (proj2 (Nat.eqb_neq n k)), (proj2 (Nat.eqb_neq n x)) by lia. cbn [orb]. reflexivity. }
  exists h'. split; [exact E'|]. split; [exact L'|]. split; [exact (kept_trans _ _ _ (kept_new h) K)|]. split.
  { apply K. exists blank. split; [|repeat split]. unfold g, n. rewrite nth_new, Nat.eqb_refl. reflexivity. }
  split; [lia|]. intros y l C. destruct (chains_behind g h' x n Lg) as [B _]; [congruence | lia | | lia | exact P |].
  - intros w Q. rewrite Pg in Q. assert (W : w < length h). { destruct (Nat.lt_ge_cases w (length h)) as [W|W]; [exact W|]. rewrite (parent_out h w W) in Q. discriminate. }
    destruct (linked_parent_chain h w n L W Q) as (m & Cm & _ & _). apply chain_lt in Cm. unfold n in Cm. lia.
  - apply B; [pose proof (chain_lt _ _ _ C); unfold n; lia|]. apply (chain_same h); [lia | intros; apply Pg | exact C].
Qed.
