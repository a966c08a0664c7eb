From Verif Require Import Base Text TextProofs PathModel PathSpec.
Local Open Scope nat_scope.

Lemma is_slash_slash : is_slash slash = true.
Proof. reflexivity. Qed.
Lemma is_slash_spec c : is_slash c = true <-> c = slash.
Proof. unfold is_slash, ascii_eqb. destruct (ascii_dec c slash); split; congruence. Qed.
Lemma is_slash_false c : is_slash c = false <-> c <> slash.
Proof. unfold is_slash, ascii_eqb. destruct (ascii_dec c slash); split; congruence. Qed.
Lemma ceqb_true a b : chars_eqb a b = true <-> a = b.
Proof. unfold chars_eqb. destruct (list_eq_dec ascii_dec a b); split; congruence. Qed.
Lemma ceqb_false a b : chars_eqb a b = false <-> a <> b.
Proof. unfold chars_eqb. destruct (list_eq_dec ascii_dec a b); split; congruence. Qed.
Lemma ceqb_refl a : chars_eqb a a = true.
Proof. now apply ceqb_true. Qed.

(* ---- split ---- *)
Lemma split_ne s : split s <> [].
Proof.
  destruct s as [|c s]; cbn [split]; [discriminate|].
  destruct (is_slash c); [discriminate|]. destruct (split s); discriminate.
Qed.
Lemma split_cons_slash s : split (slash :: s) = [] :: split s.
Proof. reflexivity. Qed.
Lemma split_word w : ~ In slash w -> split w = [w].
Proof.
  induction w as [|c w IH]; intros H; [reflexivity|]. cbn [split].
  assert (E : is_slash c = false) by (apply is_slash_false; intros ->; apply H; now left).
  rewrite E, IH; [reflexivity|]. intros K; apply H; now right.
Qed.
Lemma split_app a b : split (a ++ slash :: b) = split a ++ split b.
Proof.
  induction a as [|c a IH]; [reflexivity|]. cbn [split app]. rewrite IH.
  destruct (is_slash c); [reflexivity|].
  destruct (split a) eqn:E; [now destruct (split_ne a)|reflexivity].
Qed.
Lemma split_noslash s w : In w (split s) -> ~ In slash w.
Proof.
  revert w; induction s as [|c s IH]; intros w H; cbn [split] in H.
  - destruct H as [<- | []]. auto.
  - destruct (is_slash c) eqn:E.
    + destruct H as [<- | H]; auto.
    + destruct (split s) as [|x l] eqn:S.
      * destruct H as [<- | []]. intros [K | []]. subst. discriminate.
      * destruct H as [<- | H]; [|apply IH; now right].
        intros [K | K]; [subst; discriminate|]. apply (IH x); [now left|exact K].
Qed.
Lemma pieces_split s l : pieces s l -> split s = l.
Proof.
  induction 1 as [w H|w s l H _ IH]; [now apply split_word|].
  rewrite split_app, IH, (split_word w H). reflexivity.
Qed.
Lemma split_pieces s : pieces s (split s).
Proof.
  induction s as [|c s IH]; cbn [split].
  - apply pieces_one. intros [].
  - destruct (is_slash c) eqn:E.
    + apply is_slash_spec in E. subst c. apply (pieces_more []); [intros []|exact IH].
    + apply is_slash_false in E. inversion IH as [w Hw Q1 Q2|w s' l Hw Hs Q1 Q2].
      * apply pieces_one. intros [K | K]; [congruence|auto].
      * rewrite <- Q1 in *. apply (pieces_more (c :: w)); [|exact Hs].
        intros [K | K]; [congruence|auto].
Qed.
Lemma split_unsplit l : l <> [] -> Forall (fun w => ~ In slash w) l -> split (unsplit l) = l.
Proof.
  induction l as [|w l IH]; intros Ne H; [congruence|].
  inversion H as [|? ? Hw Hl]; subst. destruct l as [|x l].
  - cbn [unsplit]. now apply split_word.
  - change (unsplit (w :: x :: l)) with (w ++ slash :: unsplit (x :: l)).
    rewrite split_app, IH, (split_word w Hw); [reflexivity|discriminate|exact Hl].
Qed.

(* ---- the fold over the pieces, rooted ---- *)
Definition F (st ws : list chars) : list chars := fold_left (norm_step true) ws st.
Lemma F_app st a b : F st (a ++ b) = F (F st a) b.
Proof. apply fold_left_app. Qed.
Lemma F_cons st w ws : F st (w :: ws) = F (norm_step true st w) ws.
Proof. reflexivity. Qed.
Lemma step_empty r st : norm_step r st [] = st.
Proof. reflexivity. Qed.
Lemma step_cur r st : norm_step r st curdir = st.
Proof. reflexivity. Qed.
Lemma step_name r st w : w <> [] -> w <> curdir -> w <> pardir -> norm_step r st w = w :: st.
Proof.
  intros A B C. unfold norm_step.
  rewrite (proj2 (ceqb_false w []) A), (proj2 (ceqb_false w curdir) B), (proj2 (ceqb_false w pardir) C).
  reflexivity.
Qed.
Lemma step_up st x : x <> pardir -> norm_step true (x :: st) pardir = st.
Proof.
  intros A. unfold norm_step. rewrite (proj2 (ceqb_false x pardir) A).
  reflexivity.
Qed.
Lemma step_top : norm_step true [] pardir = [].
Proof. reflexivity. Qed.
Lemma proper_step r st w : proper w -> norm_step r st w = w :: st.
Proof. intros (A & _ & C & D). now apply step_name. Qed.
Lemma F_proper st l : Forall proper l -> F st l = rev l ++ st.
Proof.
  revert st; induction l as [|w l IH]; intros st H; [reflexivity|].
  inversion H as [|? ? A B]; subst. rewrite F_cons, proper_step, IH by assumption.
  cbn [rev]. now rewrite <- app_assoc.
Qed.
Lemma walk_F d ws d' : walk d ws d' -> Forall proper d -> F (rev d) ws = rev d' /\ Forall proper d'.
Proof.
  induction 1 as [d|d w ws d' H W IH|d x ws d' W IH|ws d' W IH|d w ws d' H W IH]; intros P.
  - split; [reflexivity|exact P].
  - rewrite F_cons. destruct H as [-> | ->]; rewrite ?step_empty, ?step_cur; auto.
  - apply Forall_app in P. destruct P as [P Q]. inversion Q as [|? ? X _]; subst.
    rewrite rev_app_distr. cbn [rev app]. rewrite F_cons, step_up; [auto|apply X].
  - rewrite F_cons. cbn [rev]. rewrite step_top. auto.
  - rewrite F_cons, proper_step by assumption. rewrite rev_app_distr in IH. apply IH.
    apply Forall_app. split; [exact P|]. constructor; [exact H|constructor].
Qed.
Lemma walk_ex ws : forall d, Forall proper d -> Forall (fun w => ~ In slash w) ws ->
  exists d', walk d ws d'.
Proof.
  induction ws as [|w ws IH]; intros d P N.
  - exists d. constructor.
  - inversion N as [|? ? Nw Nws]; subst.
    destruct (list_eq_dec ascii_dec w []) as [E1|E1].
    { destruct (IH d P Nws) as (d' & W). exists d'. apply walk_stay; auto. }
    destruct (list_eq_dec ascii_dec w curdir) as [E2|E2].
    { destruct (IH d P Nws) as (d' & W). exists d'. apply walk_stay; auto. }
    destruct (list_eq_dec ascii_dec w pardir) as [E3|E3].
    { subst w. destruct d as [|y d0] using rev_ind.
      - destruct (IH [] P Nws) as (d' & W). exists d'. now apply walk_top.
      - apply Forall_app in P. destruct P as [P _].
        destruct (IH d0 P Nws) as (d' & W). exists d'. now apply walk_up. }
    assert (Q : proper w) by (unfold proper; auto).
    destruct (IH (d ++ [w])) as (d' & W); [|exact Nws|].
    { apply Forall_app. split; [exact P|]. constructor; [exact Q|constructor]. }
    exists d'. now apply walk_down.
Qed.

(* ---- leading slashes ---- *)
Fixpoint count (s : chars) : nat :=
  match s with c :: s' => if is_slash c then S (count s') else 0 | [] => 0 end.
Definition lead (n : nat) : nat := match n with 0 => 0 | 2 => 2 | _ => 1 end.
Lemma leading_count s : leading s = lead (count s).
Proof.
  destruct s as [|a [|b [|c s]]]; cbn [leading count]; try reflexivity.
  - now destruct (is_slash a).
  - destruct (is_slash a), (is_slash b); reflexivity.
  - destruct (is_slash a), (is_slash b); try reflexivity.
    destruct (is_slash c); [|reflexivity]. cbn [andb negb lead]. now destruct (count s).
Qed.
Lemma lead_good n : 0 < n -> lead n = 1 \/ lead n = 2.
Proof. destruct n as [|[|[|n]]]; cbn [lead]; auto; lia. Qed.
Lemma isabs_count s : isabs s = true <-> 0 < count s.
Proof.
  destruct s as [|c s]; cbn [isabs count]; [split; [discriminate|lia]|].
  destruct (is_slash c); split; intros; try lia; auto; discriminate.
Qed.
Lemma nonabs_count s : isabs s = false <-> count s = 0.
Proof.
  destruct s as [|c s]; cbn [isabs count]; [split; reflexivity|].
  destruct (is_slash c); split; intros; try lia; auto; discriminate.
Qed.
Lemma leading_good s : isabs s = true -> leading s = 1 \/ leading s = 2.
Proof. intros H. rewrite leading_count. apply lead_good. now apply isabs_count. Qed.
Lemma leading_0 s : isabs s = false -> leading s = 0.
Proof. intros H. rewrite leading_count. apply nonabs_count in H. now rewrite H. Qed.
Lemma count_app a b : count b = 0 -> count (a ++ b) = count a.
Proof.
  intros H. induction a as [|c a IH]; [exact H|]. cbn [count app].
  destruct (is_slash c); [now rewrite IH|reflexivity].
Qed.
Lemma count_app_slash a b : a <> [] -> ends_slash a = false -> count (a ++ slash :: b) = count a.
Proof.
  unfold ends_slash. intros Ne E. destruct a as [|c0 a0]; [congruence|].
  revert c0 E Ne; induction a0 as [|c1 a0 IH]; intros c0 E _.
  - cbn [last] in E. cbn [app count]. now rewrite E.
  - specialize (IH c1). change (last (c0 :: c1 :: a0) dot) with (last (c1 :: a0) dot) in E.
    change ((c0 :: c1 :: a0) ++ slash :: b) with (c0 :: (c1 :: a0) ++ slash :: b).
    cbn [count]. destruct (is_slash c0); [|reflexivity].
    specialize (IH E ltac:(discriminate)). cbn [count] in IH. now rewrite IH.
Qed.
Lemma ends_slash_split a : ends_slash a = true -> exists a0, a = a0 ++ [slash].
Proof.
  unfold ends_slash. destruct a as [|c a]; [discriminate|]. intros E.
  exists (removelast (c :: a)). apply is_slash_spec in E. rewrite <- E.
  apply app_removelast_last. discriminate.
Qed.
Lemma leading_join a b : isabs a = true -> isabs b = false -> leading (join2 a b) = leading a.
Proof.
  intros A B. unfold join2. rewrite B.
  destruct a as [|c a]; [discriminate|]. cbn [orb].
  rewrite !leading_count. destruct (ends_slash (c :: a)) eqn:E.
  - rewrite count_app; [reflexivity|now apply nonabs_count].
  - rewrite count_app_slash; [reflexivity|discriminate|exact E].
Qed.
Lemma isabs_join a b : isabs a = true -> isabs (join2 a b) = true.
Proof.
  intros A. unfold join2. destruct (isabs b) eqn:B; [exact B|].
  destruct a as [|c a]; [discriminate|]. cbn [isabs] in A.
  destruct (false || ends_slash (c :: a)); exact A.
Qed.
Lemma F_join st a b : a <> [] -> isabs b = false ->
  F st (split (join2 a b)) = F (F st (split a)) (split b).
Proof.
  intros Ne B. unfold join2. rewrite B. destruct a as [|c a]; [congruence|]. cbn [orb].
  destruct (ends_slash (c :: a)) eqn:E.
  - destruct (ends_slash_split _ E) as (a0 & ->). rewrite <- app_assoc. cbn [app].
    rewrite !split_app. rewrite !F_app. reflexivity.
  - rewrite split_app, F_app. reflexivity.
Qed.

(* ---- normpath ---- *)
Lemma repeat_app_ne k (s : chars) : k = 1 \/ k = 2 -> repeat slash k ++ s <> [].
Proof. intros [-> | ->]; discriminate. Qed.
Lemma normpath_abs s : isabs s = true ->
  normpath s = repeat slash (leading s) ++ unsplit (rev (F [] (split s))).
Proof.
  intros A. unfold normpath. destruct s as [|c s]; [discriminate|].
  pose proof (leading_good _ A) as G. cbv zeta.
  replace (negb (Nat.eqb (leading (c :: s)) 0)) with true by (destruct G as [-> | ->]; reflexivity).
  change (fold_left (norm_step true) (split (c :: s)) []) with (F [] (split (c :: s))).
  destruct (repeat slash (leading (c :: s)) ++ unsplit (rev (F [] (split (c :: s))))) eqn:E;
    [now apply repeat_app_ne in E|reflexivity].
Qed.
Lemma unsplit_abs k l : repeat slash k ++ unsplit l = abs_path k l.
Proof.
  unfold abs_path. destruct l as [|w l]; [apply app_nil_r|]. f_equal.
  revert w; induction l as [|x l IH]; intros w.
  - cbn [unsplit tail_of]. now rewrite app_nil_r.
  - change (unsplit (w :: x :: l)) with (w ++ slash :: unsplit (x :: l)). rewrite IH. reflexivity.
Qed.
Lemma proper_noslash l : Forall proper l -> Forall (fun w => ~ In slash w) l.
Proof. intros H. eapply Forall_impl; [|exact H]. intros w (_ & N & _). exact N. Qed.
Lemma Forall_split s : Forall (fun w => ~ In slash w) (split s).
Proof. apply Forall_forall. intros w. apply split_noslash. Qed.

Lemma count_abs k l : good k l -> count (abs_path k l) = k.
Proof.
  intros [K P]. destruct l as [|w l]; cbn [abs_path].
  - destruct K as [-> | ->]; reflexivity.
  - inversion P as [|? ? (A & B & _) _]; subst. destruct w as [|c w]; [congruence|].
    assert (E : is_slash c = false) by (apply is_slash_false; intros ->; apply B; now left).
    destruct K as [-> | ->]; cbn [repeat app count]; rewrite !is_slash_slash, E; reflexivity.
Qed.
Lemma leading_abs k l : good k l -> leading (abs_path k l) = k.
Proof. intros G. rewrite leading_count, count_abs by exact G. destruct G as [[-> | ->] _]; reflexivity. Qed.
Lemma isabs_abs k l : good k l -> isabs (abs_path k l) = true.
Proof. intros G. apply isabs_count. rewrite count_abs by exact G. destruct G as [[-> | ->] _]; lia. Qed.
Lemma split_abs k l : good k l -> l <> [] -> split (abs_path k l) = repeat [] k ++ l.
Proof.
  intros [K P] Ne. rewrite <- unsplit_abs. destruct K as [-> | ->]; cbn [repeat app];
    rewrite !split_cons_slash, (split_unsplit l Ne (proper_noslash l P)); reflexivity.
Qed.
Lemma F_abs st k l : good k l -> F st (split (abs_path k l)) = rev l ++ st.
Proof.
  intros G. destruct l as [|w l].
  - destruct G as [[-> | ->] _]; reflexivity.
  - rewrite split_abs by (auto; discriminate). rewrite F_app, F_proper by apply G.
    destruct G as [[-> | ->] _]; reflexivity.
Qed.
Lemma normpath_canonical k l : good k l -> normpath (abs_path k l) = abs_path k l.
Proof.
  intros G. rewrite normpath_abs by (now apply isabs_abs). rewrite leading_abs, F_abs by exact G.
  rewrite app_nil_r, rev_involutive. apply unsplit_abs.
Qed.
Lemma F_walk d s : Forall proper d -> exists d', walk d (split s) d' /\ F (rev d) (split s) = rev d' /\ Forall proper d'.
Proof.
  intros P. destruct (walk_ex (split s) d P (Forall_split s)) as (d' & W).
  exists d'. split; [exact W|]. now apply walk_F.
Qed.

(* ---- normpath of a relative path ---- *)
Definition entry (w : chars) : Prop := w <> [] /\ w <> curdir /\ ~ In slash w.
Lemma rel_fold ws : Forall (fun w => ~ In slash w) ws -> forall acc, Forall entry acc ->
  let r := fold_left (norm_step false) ws acc in
  Forall entry r /\ forall st, F st (rev r) = F st (rev acc ++ ws).
Proof.
  induction ws as [|w ws IH]; intros N acc E; cbv zeta.
  - split; [exact E|]. intros st. cbn [fold_left]. now rewrite app_nil_r.
  - inversion N as [|? ? Nw Nws]; subst. cbn [fold_left].
    assert (K : Forall entry (norm_step false acc w) /\
                forall st, F st (rev (norm_step false acc w)) = F st (rev acc ++ [w])).
    { destruct (list_eq_dec ascii_dec w []) as [E1|E1].
      { subst w. rewrite step_empty. split; [exact E|]. intros st. now rewrite F_app. }
      destruct (list_eq_dec ascii_dec w curdir) as [E2|E2].
      { subst w. rewrite step_cur. split; [exact E|]. intros st. now rewrite F_app. }
      assert (W : entry w) by (unfold entry; auto).
      destruct (list_eq_dec ascii_dec w pardir) as [E3|E3].
      - subst w. destruct acc as [|x acc].
        + split; [constructor; [exact W|constructor]|reflexivity].
        + destruct (list_eq_dec ascii_dec x pardir) as [E4|E4].
          * subst x. split; [constructor; assumption|]. intros st. reflexivity.
          * replace (norm_step false (x :: acc) pardir) with acc
              by (unfold norm_step; rewrite (proj2 (ceqb_false x pardir) E4); reflexivity).
            inversion E as [|? ? X XS]; subst. split; [exact XS|]. intros st.
            cbn [rev]. rewrite <- app_assoc, F_app. cbn [app]. rewrite !F_cons.
            destruct X as (X1 & X2 & _). rewrite (step_name true _ x X1 X2 E4).
            rewrite step_up by exact E4. reflexivity.
      - rewrite step_name by assumption. split; [constructor; assumption|].
        intros st. reflexivity. }
    destruct K as [K1 K2]. destruct (IH Nws _ K1) as [L1 L2]. split; [exact L1|].
    intros st. rewrite L2, F_app, K2, !F_app. reflexivity.
Qed.
Lemma normpath_rel s : isabs s = false ->
  isabs (normpath s) = false /\ forall st, F st (split (normpath s)) = F st (split s).
Proof.
  intros A. destruct s as [|c s]; [split; reflexivity|].
  unfold normpath. rewrite (leading_0 _ A). cbv zeta. cbn [Nat.eqb negb repeat app].
  destruct (rel_fold (split (c :: s)) (Forall_split _) [] (Forall_nil _)) as [E R].
  set (r := fold_left (norm_step false) (split (c :: s)) []) in *. clearbody r.
  cbn [rev app] in R.
  destruct (rev r) as [|w l] eqn:Q.
  - cbn [unsplit]. split; [reflexivity|]. intros st. rewrite <- R. reflexivity.
  - assert (E' : Forall entry (w :: l)) by (rewrite <- Q; now apply Forall_rev).
    assert (N : unsplit (w :: l) <> [] /\ isabs (unsplit (w :: l)) = false).
    { inversion E' as [|? ? (X & _ & Y) _]; subst. destruct w as [|a w]; [congruence|].
      assert (Z : is_slash a = false) by (apply is_slash_false; intros ->; apply Y; now left).
      destruct l; cbn [unsplit app isabs]; split; try discriminate; exact Z. }
    destruct N as [N1 N2]. destruct (unsplit (w :: l)) as [|a u] eqn:U; [congruence|].
    split; [exact N2|]. intros st. rewrite <- U, split_unsplit; [apply R|discriminate|].
    eapply Forall_impl; [|exact E']. intros x (_ & _ & X). exact X.
Qed.

(* ---- norm ---- *)
Section Cwd.
Context (cwd : chars) (Hcwd : isabs cwd = true).

Lemma norm_canonical k l : good k l -> norm cwd (abs_path k l) = abs_path k l.
Proof.
  intros G. unfold norm, abspath. rewrite normpath_canonical, isabs_abs by exact G.
  now apply normpath_canonical.
Qed.
Lemma norm_abs s : isabs s = true ->
  exists d, walk [] (split s) d /\ good (leading s) d /\ norm cwd s = abs_path (leading s) d.
Proof.
  intros A. destruct (F_walk [] s (Forall_nil _)) as (d & W & E & P). exists d.
  split; [exact W|]. assert (G : good (leading s) d) by (split; [now apply leading_good|exact P]).
  split; [exact G|]. unfold norm, abspath. cbn [rev] in E.
  rewrite (normpath_abs s A), E, rev_involutive, unsplit_abs, isabs_abs by exact G.
  now apply normpath_canonical.
Qed.
Lemma norm_rel s : isabs s = false ->
  exists d, walk [] (split cwd ++ split s) d /\ good (leading cwd) d /\
            norm cwd s = abs_path (leading cwd) d.
Proof.
  intros A.
  assert (N : Forall (fun w => ~ In slash w) (split cwd ++ split s))
    by (apply Forall_app; split; apply Forall_split).
  destruct (walk_ex _ [] (Forall_nil _) N) as (d & W). exists d. split; [exact W|].
  destruct (walk_F _ _ _ W (Forall_nil _)) as [E P]. cbn [rev] in E.
  split; [split; [now apply leading_good|exact P]|].
  destruct (normpath_rel s A) as [B R].
  unfold norm, abspath. rewrite B.
  rewrite normpath_abs by (now apply isabs_join). rewrite leading_join by assumption.
  rewrite F_join; [|intros C; rewrite C in Hcwd; discriminate|exact B].
  rewrite R, <- F_app, E, rev_involutive. apply unsplit_abs.
Qed.
Lemma child_rel k l v : good k l -> isabs v = false ->
  exists d, walk l (split v) d /\ good k d /\ child cwd (abs_path k l) v = abs_path k d.
Proof.
  intros G A. destruct (F_walk l v (proj2 G)) as (d & W & E & P). exists d.
  split; [exact W|]. assert (G' : good k d) by (split; [apply G|exact P]). split; [exact G'|].
  unfold child, norm, abspath.
  rewrite (normpath_abs (join2 (abs_path k l) v)) by (apply isabs_join; now apply isabs_abs).
  rewrite leading_join, leading_abs by (auto; now apply isabs_abs).
  rewrite F_join; [|intros C; pose proof (isabs_abs k l G) as X; rewrite C in X; discriminate|exact A].
  rewrite F_abs, app_nil_r, E, rev_involutive, unsplit_abs, isabs_abs by assumption.
  now apply normpath_canonical.
Qed.
Lemma child_abs p v : isabs v = true -> child cwd p v = norm cwd v.
Proof. intros A. unfold child, join2. now rewrite A. Qed.
Lemma child_walk k l v d : good k l -> isabs v = false -> walk l (split v) d ->
  child cwd (abs_path k l) v = abs_path k d.
Proof.
  intros G A W. destruct (child_rel k l v G A) as (d' & W' & _ & E). rewrite E. f_equal.
  destruct (walk_F _ _ _ W (proj2 G)) as [X _]. destruct (walk_F _ _ _ W' (proj2 G)) as [Y _].
  rewrite X in Y. apply (f_equal (@rev chars)) in Y. now rewrite !rev_involutive in Y.
Qed.

(* ---- parent, name ---- *)
Lemma parent_snoc k l w : good k (l ++ [w]) -> parent cwd (abs_path k (l ++ [w])) = abs_path k l.
Proof.
  intros G. unfold parent. apply child_walk; [exact G|reflexivity|].
  change (split pardir) with [pardir]. apply walk_up. constructor.
Qed.
Lemma parent_root k : k = 1 \/ k = 2 -> parent cwd (abs_path k []) = abs_path k [].
Proof.
  intros K. unfold parent. apply child_walk; [split; [exact K|constructor]|reflexivity|].
  change (split pardir) with [pardir]. apply walk_top. constructor.
Qed.
Lemma last_component_word w acc : ~ In slash w -> last_component w acc = rev acc ++ w.
Proof.
  revert acc; induction w as [|c w IH]; intros acc H; cbn [last_component]; [now rewrite app_nil_r|].
  assert (E : is_slash c = false) by (apply is_slash_false; intros ->; apply H; now left).
  rewrite E, IH by (intros K; apply H; now right). cbn [rev]. now rewrite <- app_assoc.
Qed.
Lemma last_component_slash a w acc : ~ In slash w -> last_component (a ++ slash :: w) acc = w.
Proof.
  intros H. revert acc; induction a as [|c a IH]; intros acc; cbn [last_component app].
  - rewrite is_slash_slash. now rewrite last_component_word.
  - destruct (is_slash c); apply IH.
Qed.
Lemma tail_of_app a b : tail_of (a ++ b) = tail_of a ++ tail_of b.
Proof. induction a as [|w a IH]; [reflexivity|]. cbn [tail_of app]. now rewrite IH, app_assoc. Qed.
Lemma name_snoc k l w : good k (l ++ [w]) -> name (abs_path k (l ++ [w])) = w.
Proof.
  intros [K P]. apply Forall_app in P. destruct P as [_ P].
  inversion P as [|? ? (_ & N & _) _]; subst. unfold name, basename.
  destruct l as [|x l]; cbn [abs_path app].
  - cbn [tail_of]. rewrite app_nil_r.
    destruct K as [-> | ->]; cbn [repeat app].
    + apply (last_component_slash [] w []). exact N.
    + apply (last_component_slash [slash] w []). exact N.
  - rewrite tail_of_app. cbn [tail_of]. rewrite app_nil_r, !app_assoc.
    apply last_component_slash. exact N.
Qed.
Lemma name_root k : k = 1 \/ k = 2 -> name (abs_path k []) = [].
Proof. intros [-> | ->]; reflexivity. Qed.
Lemma proper_nonabs w : proper w -> isabs w = false.
Proof.
  intros (A & B & _). destruct w as [|c w]; [congruence|]. cbn [isabs].
  apply is_slash_false. intros ->. apply B. now left.
Qed.
Lemma child_name k l w : good k l -> proper w -> child cwd (abs_path k l) w = abs_path k (l ++ [w]).
Proof.
  intros G P. apply child_walk; [exact G|now apply proper_nonabs|].
  rewrite (split_word w) by apply P. apply walk_down; [exact P|constructor].
Qed.
Lemma split_join p : canonical p -> child cwd (parent cwd p) (name p) = p.
Proof.
  intros (k & l & G & ->). destruct l as [|w l] using rev_ind.
  - rewrite parent_root, name_root by apply G. apply child_walk; [exact G|reflexivity|].
    change (split []) with [@nil ascii]. apply walk_stay; [now left|constructor].
  - rewrite parent_snoc, name_snoc by exact G. destruct G as [K P]. apply Forall_app in P.
    destruct P as [P Q]. inversion Q as [|? ? X _]; subst.
    apply child_name; [split; assumption|exact X].
Qed.

(* ---- relpath ---- *)
Lemma filter_pieces k l : good k l -> filter nonempty (split (abs_path k l)) = l.
Proof.
  intros G. destruct l as [|w l].
  - destruct G as [[-> | ->] _]; reflexivity.
  - rewrite split_abs, filter_app by (auto; discriminate).
    transitivity (filter nonempty (w :: l)); [destruct G as [[-> | ->] _]; reflexivity|]. destruct G as [_ P]. revert P. generalize (w :: l). clear. intros l P.
    induction P as [|x l X P IH]; [reflexivity|]. cbn [filter]. rewrite IH.
    destruct X as (X & _). destruct x; [congruence|reflexivity].
Qed.
Lemma abs_path_inj k l k' l' : good k l -> good k' l' -> abs_path k l = abs_path k' l' -> k = k' /\ l = l'.
Proof.
  intros G G' E. split.
  - rewrite <- (leading_abs k l G), E. now apply leading_abs.
  - rewrite <- (filter_pieces k l G), E. now apply filter_pieces.
Qed.
Lemma common_prefix_l a b : common_prefix a b = firstn (length (common_prefix a b)) a.
Proof.
  revert b; induction a as [|x a IH]; intros [|y b]; cbn [common_prefix length firstn]; try reflexivity.
  destruct (chars_eqb x y); [|reflexivity]. cbn [length firstn]. now rewrite <- IH.
Qed.
Lemma common_prefix_r a b : common_prefix a b = firstn (length (common_prefix a b)) b.
Proof.
  revert b; induction a as [|x a IH]; intros [|y b]; cbn [common_prefix length firstn]; try reflexivity.
  destruct (chars_eqb x y) eqn:E; [|reflexivity]. apply ceqb_true in E. subst y.
  cbn [length firstn]. now rewrite <- IH.
Qed.
Lemma common_prefix_longest a b : longest_common a b (common_prefix a b).
Proof.
  split; [|split].
  - exists (skipn (length (common_prefix a b)) a). rewrite (common_prefix_l a b) at 1.
    symmetry. apply firstn_skipn.
  - exists (skipn (length (common_prefix a b)) b). rewrite (common_prefix_r a b) at 1.
    symmetry. apply firstn_skipn.
  - intros d (x & ->) (y & ->). revert x y. induction d as [|c d IH]; intros x y.
    + now exists (common_prefix x y).
    + cbn [app common_prefix]. rewrite ceqb_refl. destruct (IH x y) as (z & E). exists z. now rewrite E.
Qed.
Lemma fold_join l : forall x, x <> [] -> ends_slash x = false ->
  Forall (fun w => w <> [] /\ ~ In slash w) l -> fold_left join2 l x = x ++ tail_of l.
Proof.
  induction l as [|w l IH]; intros x Ne E P; cbn [fold_left tail_of]; [now rewrite app_nil_r|].
  inversion P as [|? ? (A & B) Q]; subst.
  assert (Aw : isabs w = false).
  { destruct w as [|c w]; [congruence|]. cbn [isabs]. apply is_slash_false. intros ->. apply B. now left. }
  replace (join2 x w) with (x ++ slash :: w)
    by (unfold join2; rewrite Aw, E; destruct x; [congruence|reflexivity]).
  rewrite IH; [rewrite <- app_assoc; reflexivity|destruct x; discriminate| |exact Q].
  unfold ends_slash. destruct (x ++ slash :: w) eqn:Z; [reflexivity|]. rewrite <- Z.
  apply is_slash_false. intros K. apply B. rewrite <- K.
  destruct (exists_last A) as (w0 & c & ->).
  replace (x ++ slash :: w0 ++ [c]) with ((x ++ slash :: w0) ++ [c]) by (now rewrite <- app_assoc).
  rewrite last_last. apply in_or_app. right. now left.
Qed.
Lemma join_words w l : Forall (fun w => w <> [] /\ ~ In slash w) (w :: l) -> join w l = unsplit (w :: l).
Proof.
  intros P. inversion P as [|? ? (A & B) Q]; subst. unfold join. rewrite fold_join; [|exact A| |exact Q].
  - pose proof (unsplit_abs 0 (w :: l)) as U. cbn [repeat app abs_path] in U. now rewrite U.
  - unfold ends_slash. destruct w as [|c w]; [reflexivity|]. apply is_slash_false. intros K. apply B.
    rewrite <- K. destruct (exists_last A) as (w0 & c' & E). rewrite E, last_last.
    apply in_or_app. right. now left.
Qed.
Lemma walk_ups a b : Forall proper a -> Forall proper b -> forall n c, n <= length a ->
  firstn (length a - n) a ++ c = b -> Forall proper c -> walk a (repeat pardir n ++ c) b.
Proof.
  intros Pa Pb n. revert a Pa. induction n as [|n IH]; intros a Pa c L E Pc.
  - rewrite Nat.sub_0_r, firstn_all in E. subst b. cbn [repeat app]. clear L Pb.
    revert a Pa. induction Pc as [|w c W Pc IHc]; intros a Pa; [rewrite app_nil_r; constructor|].
    apply walk_down; [exact W|]. replace (a ++ w :: c) with ((a ++ [w]) ++ c) by (now rewrite <- app_assoc).
    apply IHc. apply Forall_app. split; [exact Pa|]. constructor; [exact W|constructor].
  - destruct a as [|x a _] using rev_ind; [cbn [length] in L; lia|].
    cbn [repeat app]. apply walk_up. rewrite app_length in L, E. cbn [length] in L, E.
    apply Forall_app in Pa. apply IH; [apply Pa|lia| |exact Pc].
    rewrite <- E. rewrite firstn_app. replace (length a + 1 - S n) with (length a - n) by lia.
    replace (length a - n - length a) with 0 by lia. cbn [firstn]. now rewrite app_nil_r.
Qed.
Lemma relpath_rel k a b : good k a -> good k b ->
  child cwd (abs_path k a) (relpath cwd (abs_path k a) (abs_path k b)) = abs_path k b.
Proof.
  intros Ga Gb. unfold relpath. rewrite isabs_abs by exact Gb. unfold os_relpath, abspath.
  rewrite !isabs_abs, !normpath_canonical, !filter_pieces by assumption.
  set (i := length (common_prefix a b)). cbv zeta.
  assert (La : i <= length a).
  { unfold i. rewrite (common_prefix_l a b), firstn_length. lia. }
  assert (E : firstn i a = firstn i b).
  { unfold i. rewrite <- common_prefix_l. apply common_prefix_r. }
  assert (W : walk a (repeat pardir (length a - i) ++ skipn i b) b).
  { apply walk_ups; [apply Ga|apply Gb|lia| |].
    - replace (length a - (length a - i)) with i by lia. rewrite E. apply firstn_skipn.
    - destruct Gb as [_ P]. rewrite <- (firstn_skipn i b) in P. now apply Forall_app in P. }
  assert (N : Forall (fun w => w <> [] /\ ~ In slash w) (repeat pardir (length a - i) ++ skipn i b)).
  { apply Forall_app. split.
    - apply Forall_forall. intros w K. apply repeat_spec in K. subst w. split; [discriminate|].
      intros [K | [K | []]]; discriminate.
    - destruct Gb as [_ P]. rewrite <- (firstn_skipn i b) in P. apply Forall_app in P. destruct P as [_ P].
      eapply Forall_impl; [|exact P]. intros w (X & Y & _). auto. }
  clearbody i. destruct (repeat pardir (length a - i) ++ skipn i b) as [|w l] eqn:Q.
  - apply child_walk; [exact Ga|reflexivity|]. change (split curdir) with [curdir].
    apply walk_stay; [now right|exact W].
  - rewrite join_words by exact N.
    apply child_walk; [exact Ga| |].
    + inversion N as [|? ? (X & Y) _]; subst. destruct w as [|c w]; [congruence|].
      assert (Z : is_slash c = false) by (apply is_slash_false; intros ->; apply Y; now left).
      destruct l; exact Z.
    + rewrite split_unsplit; [exact W|discriminate|].
      eapply Forall_impl; [|exact N]. intros x (_ & X). exact X.
Qed.

(* ---- iterup, common ---- *)
Fixpoint prefixes (k : nat) (d l : list chars) : list chars :=
  abs_path k d :: match l with [] => [] | w :: l' => prefixes k (d ++ [w]) l' end.
Lemma prefixes_snoc k l w : forall d, prefixes k d (l ++ [w]) = prefixes k d l ++ [abs_path k (d ++ l ++ [w])].
Proof.
  induction l as [|x l IH]; intros d.
  - reflexivity.
  - cbn [prefixes app]. rewrite IH. now rewrite <- app_assoc.
Qed.
Lemma prefixes_seq k l : prefixes k [] l = map (fun n => abs_path k (firstn n l)) (seq 0 (S (length l))).
Proof.
  induction l as [|w l IH] using rev_ind; [reflexivity|].
  rewrite prefixes_snoc, IH, app_length. cbn [length]. rewrite Nat.add_1_r.
  rewrite (seq_S (S (length l))), map_app. f_equal.
  - apply map_ext_in. intros n K. apply in_seq in K. rewrite firstn_app.
    replace (n - length l) with 0 by lia. cbn [firstn]. now rewrite app_nil_r.
  - cbn [map app Nat.add]. rewrite firstn_all2 by (rewrite app_length; cbn [length]; lia). reflexivity.
Qed.
Lemma abs_path_ne k l : good k l -> nonempty (abs_path k l) = true.
Proof. intros G. pose proof (isabs_abs k l G) as A. destruct (abs_path k l); [discriminate|reflexivity]. Qed.
Lemma good_app k a b : good k (a ++ b) -> good k a.
Proof. intros [K P]. split; [exact K|]. now apply Forall_app in P. Qed.
Lemma iterup_prefixes k l : good k l -> forall n, length l < n ->
  iterup cwd n (abs_path k l) = Some (rev (prefixes k [] l)).
Proof.
  induction l as [|w l IH] using rev_ind; intros G n L; (destruct n as [|n]; [lia|]); cbn [iterup].
  - rewrite parent_root by apply G. rewrite ceqb_refl. reflexivity.
  - rewrite parent_snoc by exact G.
    assert (E : chars_eqb (abs_path k (l ++ [w])) (abs_path k l) = false).
    { apply ceqb_false. intros E. apply abs_path_inj in E; [|exact G|now apply good_app in G].
      destruct E as [_ E]. apply (f_equal (@length chars)) in E. rewrite app_length in E. cbn [length] in E. lia. }
    rewrite E, (abs_path_ne k l) by (now apply good_app in G). cbn [orb negb].
    rewrite app_length in L. cbn [length] in L.
    rewrite IH; [|now apply good_app in G|lia].
    rewrite prefixes_snoc, rev_app_distr. reflexivity.
Qed.
Lemma prefixes_cons k d l : exists t, prefixes k d l = abs_path k d :: t.
Proof. destruct l; cbn [prefixes]; eexists; reflexivity. Qed.
Lemma common_loop_prefixes k a : forall d b ret, good k (d ++ a) -> good k (d ++ b) ->
  common_loop ret (prefixes k d a) (prefixes k d b) = Some (abs_path k (d ++ common_prefix a b)).
Proof.
  induction a as [|x a IH]; intros d b ret Ga Gb.
  - destruct (prefixes_cons k d b) as (t & ->). cbn [prefixes common_loop common_prefix].
    now rewrite ceqb_refl, app_nil_r.
  - destruct b as [|y b].
    + cbn [prefixes common_loop common_prefix]. rewrite ceqb_refl, app_nil_r.
      destruct (prefixes_cons k (d ++ [x]) a) as (t & ->). reflexivity.
    + cbn [prefixes common_loop common_prefix]. rewrite ceqb_refl.
      replace (d ++ x :: a) with ((d ++ [x]) ++ a) in Ga by (now rewrite <- app_assoc).
      replace (d ++ y :: b) with ((d ++ [y]) ++ b) in Gb by (now rewrite <- app_assoc).
      destruct (chars_eqb x y) eqn:E.
      * apply ceqb_true in E. subst y. rewrite IH by assumption. now rewrite <- app_assoc.
      * destruct (prefixes_cons k (d ++ [x]) a) as (t & ->).
        destruct (prefixes_cons k (d ++ [y]) b) as (u & ->). cbn [common_loop].
        replace (chars_eqb (abs_path k (d ++ [x])) (abs_path k (d ++ [y]))) with false;
          [now rewrite app_nil_r|].
        symmetry. apply ceqb_false. intros Q.
        apply abs_path_inj in Q; [|now apply good_app in Ga|now apply good_app in Gb].
        destruct Q as [_ Q]. apply app_inj_tail in Q. destruct Q as [_ Q]. apply ceqb_false in E. congruence.
Qed.
Lemma common_same k a b n : good k a -> good k b -> length a < n -> length b < n ->
  common cwd n (abs_path k a) (abs_path k b) = Some (Some (abs_path k (common_prefix a b))).
Proof.
  intros Ga Gb La Lb. unfold common. rewrite !iterup_prefixes by assumption. rewrite !rev_involutive.
  now rewrite common_loop_prefixes.
Qed.
Lemma common_other k k' a b n : good k a -> good k' b -> k <> k' -> length a < n -> length b < n ->
  common cwd n (abs_path k a) (abs_path k' b) = Some None.
Proof.
  intros Ga Gb K La Lb. unfold common. rewrite !iterup_prefixes by assumption. rewrite !rev_involutive.
  destruct (prefixes_cons k [] a) as (t & ->). destruct (prefixes_cons k' [] b) as (u & ->).
  cbn [common_loop]. replace (chars_eqb (abs_path k []) (abs_path k' [])) with false; [reflexivity|].
  destruct Ga as [Ka _], Gb as [Kb _].
  destruct Ka as [-> | ->], Kb as [-> | ->]; try reflexivity; now destruct K.
Qed.
End Cwd.
