(* Deleting, updating, failing dictionaries and the record of changes. *)
From Verif Require Import Base BaseProofs ParamModel ParamSpec ParamProofs ParamLinks ParamData.
Local Open Scope nat_scope.

(* h' is h without the key k at the nodes of P *)
Definition drops (h h' : heap) (k : key) (P : nat -> Prop) : Prop :=
  same_links h h' /\ tidy h' /\ (forall y, lastof h' y = lastof h y) /\
  (forall y, P y -> look k (local_map h' y) = None) /\
  (forall y k', k' <> k \/ ~ P y -> look k' (local_map h' y) = look k' (local_map h y)).

Lemma drops_local h x k : tidy h -> drops h (delete_local h x k) k (fun y => y = x).
Proof.
  intros T. unfold delete_local. destruct (mem Nat.eqb k (local_map h x)) eqn:M.
  - set (f := fun c => with_fresh (with_data c (remove_key Nat.eqb k (data c))) (k :: fresh c)).
    assert (LM : forall y, local_map (alter h x f) y = if Nat.eqb y x then remove_key Nat.eqb k (local_map h x) else local_map h y).
    { intros y. unfold local_map. rewrite nth_alter. destruct (Nat.eqb y x); [|reflexivity]. destruct (nth_error h x); reflexivity. }
    split; [apply same_links_alter; intros c; reflexivity|]. split; [|split; [|split]].
    + intros y c E. rewrite nth_alter in E. destruct (Nat.eqb y x); [|exact (T y c E)]. destruct (nth_error h x) as [d|] eqn:D; [|discriminate].
      injection E as <-. cbn. apply (NoDup_keys_remove Nat.eqb nat_deq). exact (T x d D).
    + intros y. unfold lastof. rewrite nth_alter. destruct (Nat.eqb y x) eqn:Y; [|reflexivity]. apply Nat.eqb_eq in Y. subst. destruct (nth_error h x); reflexivity.
    + intros y ->. rewrite LM, Nat.eqb_refl. apply (lookup_remove_same Nat.eqb nat_deq). apply tidy_local. exact T.
    + intros y k' H. rewrite LM. destruct (Nat.eqb y x) eqn:Y; [|reflexivity]. apply Nat.eqb_eq in Y. subst.
      apply (lookup_remove_other Nat.eqb nat_deq). destruct H as [H | H]; [exact H | exfalso; apply H; reflexivity].
  - split; [apply same_links_refl|]. split; [exact T|]. split; [reflexivity|]. split; [|reflexivity].
    intros y ->. unfold mem in M. destruct (look k (local_map h x)); [discriminate | reflexivity].
Qed.

Lemma drops_ext h h' k (P Q : nat -> Prop) : (forall y, P y <-> Q y) -> drops h h' k P -> drops h h' k Q.
Proof.
  intros E (A & B & C & D & F). split; [exact A|]. split; [exact B|]. split; [exact C|]. split.
  - intros y H. apply D, E. exact H.
  - intros y k' [H | H]; apply F; [left; exact H | right; intros I; apply H, E; exact I].
Qed.
Lemma drops_trans h h' h'' k (P Q : nat -> Prop) (dec : forall y, Q y \/ ~ Q y) : drops h h' k P -> drops h' h'' k Q -> drops h h'' k (fun y => P y \/ Q y).
Proof.
  intros (A & B & C & D & F) (A' & B' & C' & D' & F'). split; [exact (same_links_trans _ _ _ A A')|]. split; [exact B'|].
  split; [intros y; rewrite C', C; reflexivity|]. split.
  - intros y [H | H]; [|exact (D' y H)]. destruct (dec y) as [H2|H2]; [exact (D' y H2)|]. rewrite F' by (right; exact H2). exact (D y H).
  - intros y k' H. rewrite F', F; [reflexivity | |]; (destruct H as [H | H]; [left; exact H | right; tauto]).
Qed.
Lemma below_dec h x y : linked h -> at_or_below h x y \/ ~ at_or_below h x y.
Proof.
  intros L. destruct (Nat.lt_ge_cases y (length h)) as [Y|Y].
  - destruct (linked_chain h y L Y) as [l C]. destruct (in_dec Nat.eq_dec x l) as [I|I]; [left; exists l; split; assumption|].
    right. intros (l' & C' & I'). rewrite (chain_fun _ _ _ _ C' C) in I'. contradiction.
  - right. intros (l & C & _). apply chain_lt in C. lia.
Qed.
Lemma below_children h x y : linked h -> (at_or_below h x y /\ y <> x <-> exists c, In c (children h x) /\ at_or_below h c y).
Proof.
  intros L. split.
  - intros [(l & C & I) N]. destruct (chain_In_chain _ _ _ _ C I) as (a & b & E & Cb). destruct a as [|z a].
    + destruct (chain_head _ _ _ C) as [t T]. rewrite E in T. injection T as T _. congruence.
    + destruct (@exists_last _ (z :: a) ltac:(discriminate)) as (a' & w & Ea). rewrite Ea, <- app_assoc in E. cbn [app] in E.
      pose proof (chain_tail _ _ _ _ _ _ C E) as Cw. pose proof (chain_parent _ _ _ Cw) as (_ & _ & Pw & _).
      exists w. split; [apply parent_In_children; assumption|]. exists l. split; [exact C|]. rewrite E. apply in_or_app. right. left. reflexivity.
  - intros (c & Ic & l & C & I). apply (parent_In_children _ _ _ L) in Ic. destruct (chain_In_chain _ _ _ _ C I) as (a & b & E & Cb).
    pose proof (chain_parent _ _ _ Cb) as (_ & _ & K). destruct b as [|p b]; [congruence|]. destruct K as [K Kc]. assert (p = x) by congruence. subst p.
    split; [exists l; split; [exact C|]; rewrite E; apply in_or_app; right; right; left; reflexivity|].
    intros ->. apply (child_not_above _ _ _ _ L C Ic). exact I.
Qed.

Lemma delete_rec_spec k n : forall h x l local, linked h -> tidy h -> chain h x l -> length h < n + length l ->
  exists h', delete_rec n k h x local = Ok h' /\ drops h h' k (fun y => at_or_below h x y /\ (y <> x \/ local = true)).
Proof.
  induction n as [|n IH]; intros h x l local L T C B.
  - pose proof (chain_length _ _ _ C). lia.
  - cbn [delete_rec]. set (h1 := if local then delete_local h x k else h).
    assert (D1 : drops h h1 k (fun y => y = x /\ local = true)).
    { unfold h1. destruct local.
      - apply (drops_ext _ _ _ (fun y => y = x)); [intros y; tauto | apply drops_local; exact T].
      - split; [apply same_links_refl|]. split; [exact T|]. split; [reflexivity|]. split; [intros y [_ F]; discriminate | reflexivity]. }
    assert (SL : same_links h h1) by apply D1. assert (T1 : tidy h1) by apply D1.
    rewrite (same_links_children _ _ _ SL).
    assert (F : forall cs g, (forall c, In c cs -> In c (children h x)) -> same_links h g -> tidy g ->
      exists g', foldM (fun h c => delete_rec n k h c true) g cs = Ok g' /\ drops g g' k (fun y => exists c, In c cs /\ at_or_below h c y)).
    { induction cs as [|c cs IHc]; intros g Hc Sg Tg; cbn [foldM].
      - exists g. split; [reflexivity|]. split; [apply same_links_refl|]. split; [exact Tg|]. split; [reflexivity|].
        split; [intros y (c & [] & _) | reflexivity].
      - assert (Pc : parent h c = Some x) by (apply (parent_In_children _ _ _ L); apply Hc; left; reflexivity).
        assert (Lc : c < length h). { destruct (Nat.lt_ge_cases c (length h)) as [Y|Y]; [exact Y|]. rewrite (parent_out h c Y) in Pc. discriminate. }
        assert (Cc : chain g c (c :: l)) by (apply (same_links_chain h); [exact Sg | exact (chain_step h c x l Lc Pc C)]).
        destruct (IH g c (c :: l) true (same_links_linked _ _ Sg L) Tg Cc) as (g1 & E1 & D).
        { rewrite (same_links_length _ _ Sg). cbn [length]. lia. }
        rewrite E1. cbn [bind]. assert (S1 : same_links g g1) by apply D. assert (Tg1 : tidy g1) by apply D.
        destruct (IHc g1) as (g2 & E2 & D2); [intros d I; apply Hc; right; exact I | exact (same_links_trans _ _ _ Sg S1) | exact Tg1|].
        exists g2. split; [exact E2|].
        assert (Q : drops g g1 k (fun y => at_or_below h c y)).
        { apply (drops_ext _ _ _ _ _) with (2 := D). intros y. split.
          - intros [H _]. exact (same_links_below _ _ _ _ (same_links_sym _ _ Sg) H).
          - intros H. split; [exact (same_links_below _ _ _ _ Sg H) | right; reflexivity]. }
        apply (drops_ext _ _ _ (fun y => at_or_below h c y \/ exists d, In d cs /\ at_or_below h d y)).
        + intros y. split.
          * intros [H | (d & I & H)]; [exists c; split; [left; reflexivity | exact H] | exists d; split; [right; exact I | exact H]].
          * intros (d & [<- | I] & H); [left; exact H | right; exists d; split; assumption].
        + apply (drops_trans _ g1); [|exact Q | exact D2]. intros y. clear -L. induction cs as [|d cs IHd].
          * right. intros (d & [] & _).
          * destruct (below_dec h d y L) as [H|H]; [left; exists d; split; [left; reflexivity | exact H]|].
            destruct IHd as [(e & I & He)|N]; [left; exists e; split; [right; exact I | exact He]|].
            right. intros (e & [<- | I] & He); [contradiction | apply N; exists e; split; assumption]. }
    destruct (F (children h x) h1) as (h2 & E2 & D2); [tauto | exact SL | exact T1|]. exists h2. split; [exact E2|].
    apply (drops_ext _ _ _ (fun y => (y = x /\ local = true) \/ exists c, In c (children h x) /\ at_or_below h c y)).
    + intros y. rewrite <- (below_children h x y L). split.
      * intros [[-> E] | [H N]]; [split; [exists l; split; [exact C | exact (chain_self _ _ _ C)] | right; exact E] | split; [exact H | left; exact N]].
      * intros [H O]. destruct (Nat.eq_dec y x) as [->|N]; [left; split; [reflexivity|]; destruct O as [O | O]; [contradiction | exact O] | right; split; assumption].
    + apply (drops_trans _ h1); [|exact D1 | exact D2]. intros y. rewrite <- (below_children h x y L).
      destruct (below_dec h x y L) as [H|H]; [|right; tauto]. destruct (Nat.eq_dec y x); [right; tauto | left; tauto].
Qed.
Lemma delete_recursive_spec h x k local : linked h -> tidy h -> x < length h ->
  exists h', delete_recursive h x k local = Ok h' /\ drops h h' k (fun y => at_or_below h x y /\ (y <> x \/ local = true)).
Proof.
  intros L T X. destruct (linked_chain h x L X) as [l C]. apply (delete_rec_spec k (length h) h x l local L T C).
  destruct (chain_head _ _ _ C) as [t ->]. cbn [length]. lia.
Qed.

(* after a deletion only what is inherited from above remains *)
Lemma delitem_spec h x k : linked h -> tidy h -> x < length h ->
  exists h', delitem h x k = Ok h' /\ linked h' /\ tidy h' /\ (forall y l, chain h y l <-> chain h' y l) /\
    (forall y v, at_or_below h x y -> (sees h' y k v <-> exists p, under h x (Some p) /\ sees h p k v)) /\
    (forall y k' v, y < length h -> k' <> k \/ ~ at_or_below h x y -> (sees h' y k' v <-> sees h y k' v)).
Proof.
  intros L T X. unfold delitem. destruct (delete_recursive_spec h x k true L T X) as (h' & E & SL & T' & LO & D & F).
  exists h'. split; [exact E|]. split; [exact (same_links_linked _ _ SL L)|]. split; [exact T'|]. split.
  { intros y l. split; apply same_links_chain; [exact SL | exact (same_links_sym _ _ SL)]. }
  split.
  - intros y v (l & C & I). destruct (chain_In_chain _ _ _ _ C I) as (a & b & El & Cb).
    pose proof (same_links_chain _ _ _ _ SL C) as C'. rewrite (sees_first h' y l k v T' C'), El.
    replace (a ++ x :: b) with ((a ++ [x]) ++ b) by (rewrite <- app_assoc; reflexivity). rewrite map_app, first_map_app.
    + pose proof (chain_parent _ _ _ Cb) as (_ & _ & K). destruct b as [|p b].
      * cbn. split; [discriminate|]. intros (p & U & _). apply (under_parent _ _ _ X) in U. congruence.
      * destruct K as [K Kc].
        assert (Sp : sees h p k v <-> first_map k (map (local_map h') (p :: b)) = Ok v).
        { rewrite (sees_first h p _ k v T Kc). rewrite (first_map_ext k (local_map h') (local_map h)); [reflexivity|].
          intros z Iz. apply F. right. intros [(m & Cm & J) _]. destruct (chain_In_chain _ _ _ _ Kc Iz) as (a2 & b2 & E2 & C2).
          rewrite (chain_fun _ _ _ _ Cm C2) in J. pose proof (chain_NoDup _ _ _ Cb) as ND. inversion ND as [|? ? N _]; subst. apply N.
          rewrite E2. apply in_or_app. right. exact J. }
        rewrite <- Sp. split; [intros S; exists p; split; [apply under_parent; assumption | exact S]|].
        intros (q & U & S). apply (under_parent _ _ _ X) in U. assert (q = p) by congruence. subst. exact S.
    + intros m Im. apply in_map_iff in Im. destruct Im as (w & <- & Iw). apply D. split; [|right; reflexivity].
      apply in_app_or in Iw. assert (Iw' : In w l) by (rewrite El; destruct Iw as [Iw | [<- | []]]; apply in_or_app; [left; exact Iw | right; left; reflexivity]).
      destruct (chain_In_chain _ _ _ _ C Iw') as (a2 & b2 & E2 & C2). exists (w :: b2). split; [exact C2|].
      destruct Iw as [Iw | [<- | []]]; [|left; reflexivity].
      (* x comes after w *)
      pose proof (chain_NoDup _ _ _ C) as ND. rewrite El in ND, E2.
      assert (J : In x (a2 ++ w :: b2)) by (rewrite <- E2; apply in_or_app; right; left; reflexivity).
      apply in_app_or in J. destruct J as [J | J]; [|exact J]. exfalso.
      apply in_split in Iw. destruct Iw as (u1 & u2 & ->). rewrite <- app_assoc in E2. cbn [app] in E2.
      rewrite <- app_assoc in ND. cbn [app] in ND. clear -E2 ND J. revert a2 E2 J. induction u1 as [|s u1 IHu]; intros a2 E2 J.
      * destruct a2 as [|s2 a2]; [destruct J|]. cbn in E2. injection E2 as <- E2. cbn in ND. inversion ND as [|? ? N N2]; subst.
        apply N. rewrite E2. apply in_or_app. right. left. reflexivity.
      * destruct a2 as [|s2 a2]; [destruct J|]. cbn in E2. injection E2 as <- E2. cbn in ND. inversion ND as [|? ? N N2]; subst. destruct J as [<- | J].
        -- apply N. apply in_or_app. right. right. apply in_or_app. right. left. reflexivity.
        -- exact (IHu N2 a2 E2 J).
  - intros y k' v Y H. destruct (linked_chain h y L Y) as [l C]. pose proof (same_links_chain _ _ _ _ SL C) as C'.
    apply (sees_ext h h' y k' l v T T' C C'). intros z I. apply F. destruct H as [H | H]; [left; exact H|]. right. intros [(m & Cm & J) _]. apply H.
    exists l. split; [exact C|]. destruct (chain_In_chain _ _ _ _ C I) as (a2 & b2 & E2 & C2). rewrite (chain_fun _ _ _ _ Cm C2) in J.
    rewrite E2. apply in_or_app. right. exact J.
Qed.

(* ---- update_recursive ---- *)
Definition plains (d : list (key * Z)) : list (key * given) := map (fun kz => (fst kz, GPlain (snd kz))) d.

Lemma covered_self h x k : linked h -> x < length h -> covered h x x k.
Proof. intros L X. destruct (linked_chain h x L X) as [l C]. destruct (chain_head _ _ _ C) as [t ->]. exists [], t. split; [exact C | intros w []]. Qed.

Lemma update_spec x d : forall h, linked h -> tidy h -> x < length h -> NoDup (map fst d) -> (forall k z, In (k, z) d -> ~ sees h x k Sub) ->
  exists h', update h x (plains d) = (h', Ok tt) /\ linked h' /\ tidy h' /\ length h' = length h /\ (forall y l, chain h y l <-> chain h' y l) /\
    (forall k z, In (k, z) d -> sees h' x k (Plain z)) /\
    (forall y k v, y < length h -> ~ In k (map fst d) \/ ~ at_or_below h x y -> (sees h' y k v <-> sees h y k v)).
Proof.
  induction d as [|[k z] d IH]; intros h L T X ND NS; cbn [plains map update fst snd].
  - exists h. split; [reflexivity|]. repeat (split; [assumption || reflexivity|]). split; [intros k z [] | reflexivity].
  - cbn [map fst] in ND. inversion ND as [|? ? Nk ND']; subst.
    destruct (set_spec h x k z L T X (NS k z (or_introl eq_refl))) as (h1 & E1 & L1 & T1 & C1 & S1 & O1). rewrite E1.
    assert (Len1 : length h1 = length h).
    { pose proof (setitem_plain h x k z L T X (NS k z (or_introl eq_refl))) as (g & Eg & Hg). rewrite E1 in Eg. injection Eg as <-.
      destruct Hg as [[-> _]|[-> _]]; [reflexivity|]. apply same_links_length, same_links_store. }
    destruct (IH h1 L1 T1 ltac:(lia) ND') as (h2 & E2 & L2 & T2 & Len2 & C2 & S2 & O2).
    { intros k' z' I S. apply (NS k' z' (or_intror I)). apply (O1 x k' Sub X); [left; intros ->; apply Nk; apply (in_map fst) in I; exact I | exact S]. }
    exists h2. split; [exact E2|]. split; [exact L2|]. split; [exact T2|]. split; [congruence|].
    split; [intros y l; rewrite C1; apply C2|]. split.
    + intros k' z' [F | I]; [injection F as <- <-|exact (S2 k' z' I)].
      apply (O2 x k (Plain z)); [lia | left; exact Nk|]. apply S1. apply covered_self; assumption.
    + intros y k' v Y H. rewrite (O2 y k' v), (O1 y k' v Y); [reflexivity | | lia |].
      * destruct H as [H | H]; [left; intros ->; apply H; left; reflexivity|].
        right. intros (a & b & C & _). apply H. exists (a ++ x :: b). split; [exact C|]. apply in_or_app. right. left. reflexivity.
      * destruct H as [H | H]; [left; intros I; apply H; right; exact I|]. right. intros (l & C & I). apply H. exists l. split; [apply C1; exact C | exact I].
Qed.

Lemma fold_deletes x d : forall h, linked h -> tidy h -> x < length h ->
  exists h', foldM (fun h kg => delete_recursive h x (@fst key given kg) false) h d = Ok h' /\ same_links h h' /\ tidy h' /\
    (forall y k, at_or_below h x y -> y <> x -> In k (map fst d) -> look k (local_map h' y) = None) /\
    (forall y k, ~ In k (map fst d) \/ ~ (at_or_below h x y /\ y <> x) -> look k (local_map h' y) = look k (local_map h y)).
Proof.
  induction d as [|[k g] d IH]; intros h L T X; cbn [foldM map fst].
  - exists h. split; [reflexivity|]. split; [apply same_links_refl|]. split; [exact T|]. split; [intros y k _ _ [] | reflexivity].
  - destruct (delete_recursive_spec h x k false L T X) as (h1 & E1 & SL & T1 & _ & D1 & F1). rewrite E1. cbn [bind].
    destruct (IH h1 (same_links_linked _ _ SL L) T1) as (h2 & E2 & SL2 & T2 & D2 & F2); [rewrite (same_links_length _ _ SL); exact X|].
    exists h2. split; [exact E2|]. split; [exact (same_links_trans _ _ _ SL SL2)|]. split; [exact T2|]. split.
    + intros y k' B N I. destruct (in_dec Nat.eq_dec k' (map fst d)) as [J|J].
      * apply D2; [exact (same_links_below _ _ _ _ SL B) | exact N | exact J].
      * rewrite F2 by (left; exact J). destruct I as [<- | I]; [|contradiction]. apply D1. split; [exact B | left; exact N].
    + intros y k' H. rewrite F2, F1; [reflexivity | |].
      * destruct H as [H | H]; [left; intros ->; apply H; left; reflexivity|]. right. intros [B O]. apply H. split; [exact B|].
        destruct O as [O | O]; [exact O | discriminate].
      * destruct H as [H | H]; [left; intros I; apply H; right; exact I|]. right. intros [B N]. apply H. split; [|exact N].
        exact (same_links_below _ _ _ _ (same_links_sym _ _ SL) B).
Qed.

Lemma update_recursive_spec h x d : linked h -> tidy h -> x < length h -> NoDup (map fst d) -> (forall k z, In (k, z) d -> ~ sees h x k Sub) ->
  exists h', update_recursive h x (plains d) = (h', Ok tt) /\ linked h' /\ tidy h' /\ (forall y l, chain h y l <-> chain h' y l) /\
    (forall y k z, at_or_below h x y -> In (k, z) d -> sees h' y k (Plain z)) /\
    (forall y k v, y < length h -> ~ In k (map fst d) \/ ~ at_or_below h x y -> (sees h' y k v <-> sees h y k v)).
Proof.
  intros L T X ND NS. unfold update_recursive. destruct (update_spec x d h L T X ND NS) as (h1 & E1 & L1 & T1 & Len1 & C1 & S1 & O1). rewrite E1.
  destruct (fold_deletes x (plains d) h1 L1 T1 ltac:(lia)) as (h2 & E2 & SL & T2 & D2 & F2). rewrite E2.
  assert (Ek : map fst (plains d) = map fst d) by (unfold plains; rewrite map_map; reflexivity). rewrite Ek in D2, F2.
  exists h2. split; [reflexivity|]. split; [exact (same_links_linked _ _ SL L1)|]. split; [exact T2|]. split.
  { intros y l. rewrite C1. split; apply same_links_chain; [exact SL | exact (same_links_sym _ _ SL)]. }
  assert (Bb : forall y, at_or_below h x y <-> at_or_below h1 x y).
  { intros y. split; intros (l & C & I); exists l; (split; [apply C1; exact C | exact I]). }
  split.
  - intros y k z (l & C & I) J. apply C1 in C. destruct (chain_In_chain _ _ _ _ C I) as (a & b & El & Cb).
    pose proof (same_links_chain _ _ _ _ SL C) as C2. apply (sees_first h2 y l k _ T2 C2). rewrite El, map_app, first_map_app.
    + rewrite (first_map_ext k (local_map h2) (local_map h1)).
      * apply (sees_first h1 x _ k _ T1 Cb). exact (S1 k z J).
      * intros w Iw. apply F2. right. intros [(m & Cm & Im) N]. destruct (chain_In_chain _ _ _ _ Cb Iw) as (a2 & b2 & E2' & Cw).
        rewrite (chain_fun _ _ _ _ Cm Cw) in Im. destruct Im as [Im | Im]; [congruence|].
        pose proof (chain_NoDup _ _ _ Cb) as NDb. rewrite E2' in NDb. destruct a2 as [|s a2]; cbn in E2'; injection E2' as Es Eb; [congruence|].
        subst s. cbn in NDb. inversion NDb as [|? ? Q _]; subst. apply Q. apply in_or_app. right. right. exact Im.
    + intros m Im. apply in_map_iff in Im. destruct Im as (w & <- & Iw). apply D2.
      * assert (Iwl : In w l) by (rewrite El; apply in_or_app; left; exact Iw).
        apply in_split in Iw. destruct Iw as (u1 & u2 & ->). rewrite <- app_assoc in El. cbn [app] in El.
        exists (w :: u2 ++ x :: b). split; [exact (chain_tail _ _ _ _ _ _ C El) | right; apply in_or_app; right; left; reflexivity].
      * intros ->. pose proof (chain_NoDup _ _ _ C) as NDl. rewrite El in NDl. apply NoDup_remove_2 in NDl. apply NDl. apply in_or_app. left. exact Iw.
      * apply (in_map fst) in J. exact J.
  - intros y k v Y H. rewrite <- (O1 y k v Y H). assert (Y1 : y < length h1) by lia. destruct (linked_chain h1 y L1 Y1) as [l C].
    apply (sees_ext h1 h2 y k l v T1 T2 C (same_links_chain _ _ _ _ SL C)). intros z I. apply F2. destruct H as [H | H]; [left; exact H|].
    right. intros [(m & Cm & J) _]. apply H. apply Bb. exists l. split; [exact C|]. destruct (chain_In_chain _ _ _ _ C I) as (a2 & b2 & E2' & Cz).
    rewrite (chain_fun _ _ _ _ Cm Cz) in J. rewrite E2'. apply in_or_app. right. exact J.
Qed.

(* ---- clear ---- *)
Lemma clear_never h x p k v n : linked h -> tidy h -> under h x (Some p) -> sees h p k v -> clear n h x = None.
Proof.
  revert h. induction n as [|n IH]; intros h L T U S; cbn [clear]; [reflexivity|].
  pose proof (under_lt _ _ _ U) as X. unfold popitem. destruct (iter_keys_spec h x L T X) as (ks & E & _ & I & _ & _). rewrite E. cbn [bind].
  assert (Sx : exists w, sees h x k w).
  { destruct U as (c & Ec & U). destruct (in_dec Nat.eq_dec k (map fst (data c))) as [J|J].
    - apply in_map_iff in J. destruct J as ((k', w) & <- & J). exists w. apply (Sees_own h x c); assumption.
    - exists v. apply (Sees_up h x c p); assumption. }
  apply I in Sx. destruct ks as [|k0 ks]; [destruct Sx|].
  assert (S0 : exists w, sees h x k0 w) by (apply I; left; reflexivity). destruct S0 as [w S0]. apply (getitem_sees h x k0 w L T X) in S0. rewrite S0. cbn [bind].
  destruct (delitem_spec h x k0 L T X) as (h' & E' & L' & T' & C' & _ & O'). rewrite E'. cbn [bind].
  apply IH; [exact L' | exact T' | |].
  - destruct (linked_up_chain h x p L U) as (l & Cp & Cx). apply C' in Cx. apply C' in Cp. inversion Cx as [y V|y q m V M]; subst.
    + destruct (chain_head _ _ _ Cp) as [t T0]. discriminate.
    + destruct (chain_head _ _ _ M) as [t T0]. destruct (chain_head _ _ _ Cp) as [t' T1]. rewrite T1 in T0. injection T0 as <- _. exact V.
  - apply (O' p k v); [exact (sees_lt _ _ _ _ S) | | exact S]. right. intros (l & C & J).
    destruct (linked_up_chain h x p L U) as (l' & Cp & Cx). rewrite (chain_fun _ _ _ _ C Cp) in J. apply chain_NoDup in Cx. inversion Cx. contradiction.
Qed.

(* ---- dictionaries as values ---- *)
Lemma dict_fails h x k e : linked h -> tidy h -> x < length h ->
  exists h' er, setitem h x k (GDict e) = (h', Err er) /\
    (owns h x k -> h' = h) /\ (~ owns h x k -> ~ sees h x k Sub -> er = TypeError /\ linked h' /\ tidy h' /\ length h' = length h /\ sees h' x k Sub).
Proof.
  intros L T X. unfold setitem. destruct (getitem_total h x k L X) as [[v E]|E]; rewrite E.
  - destruct v as [u|].
    + destruct (look k (local_map h x)) as [[w|]|] eqn:Lk.
      * exists h, RuntimeError. split; [reflexivity|]. split; [reflexivity|]. intros N. exfalso. apply N. apply owns_look. congruence.
      * exists h, TypeError. split; [reflexivity|]. split; [reflexivity|]. intros N. exfalso. apply N. apply owns_look. congruence.
      * eexists _, TypeError. split; [reflexivity|]. split; [intros O; apply owns_look in O; contradiction|]. intros _ _. split; [reflexivity|].
        pose proof (same_links_store h x k Sub) as SL. split; [exact (same_links_linked _ _ SL L)|]. split; [apply tidy_store; exact T|].
        split; [exact (same_links_length _ _ SL)|]. destruct (linked_chain h x L X) as [l C]. pose proof (same_links_chain _ _ _ _ SL C) as C'.
        apply (sees_first _ x l k Sub (tidy_store _ _ _ _ T) C'). destruct (chain_head _ _ _ C) as [t ->]. cbn [map first_map].
        rewrite (local_store h x k Sub x X), Nat.eqb_refl, look_assign, Nat.eqb_refl. reflexivity.
    + exists h, TypeError. split; [reflexivity|]. split; [reflexivity|]. intros _ N. exfalso. apply N. apply getitem_sees; assumption.
  - assert (Lk : look k (local_map h x) = None).
    { destruct (look k (local_map h x)) as [v|] eqn:Q; [|reflexivity]. exfalso. destruct (linked_chain h x L X) as [l C]. rewrite (getitem_chain _ _ _ _ C) in E.
      destruct (chain_head _ _ _ C) as [t ->]. cbn [map first_map] in E. rewrite Q in E. discriminate. }
    rewrite Lk. eexists _, TypeError. split; [reflexivity|]. split; [intros O; apply owns_look in O; contradiction|]. intros _ _. split; [reflexivity|].
    pose proof (same_links_store h x k Sub) as SL. split; [exact (same_links_linked _ _ SL L)|]. split; [apply tidy_store; exact T|].
    split; [exact (same_links_length _ _ SL)|]. destruct (linked_chain h x L X) as [l C]. pose proof (same_links_chain _ _ _ _ SL C) as C'.
    apply (sees_first _ x l k Sub (tidy_store _ _ _ _ T) C'). destruct (chain_head _ _ _ C) as [t ->]. cbn [map first_map].
    rewrite (local_store h x k Sub x X), Nat.eqb_refl, look_assign, Nat.eqb_refl. reflexivity.
Qed.
Lemma dict_stuck h x k g : linked h -> tidy h -> x < length h -> sees h x k Sub -> setitem h x k g = (h, Err TypeError).
Proof. intros L T X S. apply (getitem_sees h x k Sub L T X) in S. unfold setitem. rewrite S. reflexivity. Qed.
