From Verif Require Import Base Text TextProofs PathModel PathSpec PathProofs.
Local Open Scope nat_scope.

Lemma run_prefix s : exists t, s = no_slash_run s ++ t.
Proof.
  induction s as [|c s (t & IH)]; [now exists []|]. cbn [no_slash_run].
  destruct (is_slash c); [now exists (c :: s)|]. exists t. cbn [app]. now rewrite <- IH.
Qed.
Lemma last_sep_spec r : forall pos n, last_sep pos r = Some n ->
  exists i, n = pos + i + 2 /\ 1 <= pos + i /\ firstn 2 (skipn i r) = devsep.
Proof.
  induction r as [|a r IH]; intros pos n H; [discriminate|].
  destruct r as [|b r]; [discriminate|].
  change (last_sep pos (a :: b :: r)) with
    (match last_sep (S pos) (b :: r) with
     | Some n => Some n
     | None => if Nat.leb 1 pos && ascii_eqb a colon && ascii_eqb b colon then Some (pos + 2) else None
     end) in H.
  destruct (last_sep (S pos) (b :: r)) as [m|] eqn:E.
  - assert (m = n) by congruence. subst m. destruct (IH _ _ E) as (i & A & B & C).
    exists (S i). split; [lia|]. split; [lia|]. exact C.
  - destruct (Nat.leb 1 pos) eqn:L; cbn [andb] in H; [|discriminate].
    destruct (ascii_eqb a colon) eqn:A; cbn [andb] in H; [|discriminate].
    destruct (ascii_eqb b colon) eqn:B; [|discriminate].
    apply ascii_eqb_spec in A, B. subst a b. apply Nat.leb_le in L.
    assert (n = pos + 2) by congruence. exists 0. split; [lia|]. split; [lia|]. reflexivity.
Qed.
Lemma split_at (s : chars) n : last_sep 0 (no_slash_run s) = Some n ->
  s = firstn (n - 2) s ++ devsep ++ skipn n s /\ 3 <= n /\ n <= length s.
Proof.
  intros H. destruct (last_sep_spec _ _ _ H) as (i & A & B & C). cbn [Nat.add] in A, B.
  destruct (run_prefix s) as (t & E). set (r := no_slash_run s) in *. clearbody r.
  assert (L : i + 2 <= length r).
  { assert (X : length (firstn 2 (skipn i r)) = 2) by (rewrite C; reflexivity).
    rewrite firstn_length, skipn_length in X. lia. }
  assert (C' : firstn 2 (skipn i s) = devsep).
  { rewrite E, skipn_app, firstn_app, skipn_length. replace (2 - (length r - i)) with 0 by lia.
    cbn [firstn]. now rewrite app_nil_r. }
  split; [|subst s; rewrite app_length; lia].
  replace (n - 2) with i by lia. replace n with (i + 2) by lia. rewrite <- C'.
  rewrite <- (firstn_skipn i s) at 1. f_equal. rewrite <- (firstn_skipn 2 (skipn i s)) at 1. f_equal.
  rewrite <- (firstn_skipn i s) at 2. rewrite skipn_app.
  assert (Lf : length (firstn i s) = i) by (rewrite firstn_length, E, app_length; lia).
  rewrite Lf. rewrite (skipn_all2 (n := i + 2) (firstn i s)) by lia. replace (i + 2 - i) with 2 by lia. reflexivity.
Qed.
Lemma devsplit_ne k acc s : devsplit k acc s <> [].
Proof.
  revert acc s; induction k as [|k IH]; intros acc s; cbn [devsplit]; [discriminate|].
  destruct s as [|c s]; [discriminate|]. destruct (ascii_eqb c dot); [|apply IH].
  destruct (last_sep 0 (no_slash_run s)); [discriminate|apply IH].
Qed.
Lemma join_sep_cons w l : l <> [] -> join_sep (w :: l) = w ++ devsep ++ join_sep l.
Proof. destruct l; [congruence|reflexivity]. Qed.
Lemma join_devsplit k : forall acc s, join_sep (devsplit k acc s) = rev acc ++ s.
Proof.
  induction k as [|k IH]; intros acc s; cbn [devsplit]; [reflexivity|].
  destruct s as [|c s]; [cbn [join_sep]; now rewrite app_nil_r|].
  assert (G : rev (c :: acc) ++ s = rev acc ++ c :: s) by (cbn [rev]; now rewrite <- app_assoc).
  destruct (ascii_eqb c dot); [|now rewrite IH].
  destruct (last_sep 0 (no_slash_run s)) as [n|] eqn:E; [|now rewrite IH].
  destruct (split_at s n E) as (S & _ & _).
  rewrite join_sep_cons by apply devsplit_ne. rewrite IH. cbn [rev app].
  rewrite <- app_assoc. cbn [app]. now rewrite <- S.
Qed.
(* the result of the splitting in _split_path, before the device is considered *)
Definition first_rest (path : chars) : chars * chars :=
  match devsplit (S (length path)) [] path with
  | [] => ([], [])
  | [d] => (d, [])
  | d :: l => (d, join_sep l)
  end.
Lemma first_rest_cases path :
  first_rest path = (path, []) \/
  exists d l, first_rest path = (d, l) /\ path = location d l.
Proof.
  unfold first_rest. pose proof (join_devsplit (S (length path)) [] path) as J. cbn [rev app] in J.
  destruct (devsplit (S (length path)) [] path) as [|d [|x l]] eqn:E.
  - now apply devsplit_ne in E.
  - left. cbn [join_sep] in J. now rewrite J.
  - right. exists d, (join_sep (x :: l)). split; [reflexivity|].
    rewrite join_sep_cons in J by discriminate. now symmetry.
Qed.
Lemma prefixed_spec p : forall s, prefixed p s = true <-> prefix_of p s.
Proof.
  induction p as [|a p IH]; intros s; cbn [prefixed].
  - split; [intros _; now exists s|reflexivity].
  - destruct s as [|b s]; [split; [discriminate|intros (t & E); discriminate]|].
    split.
    + intros H. apply Bool.andb_true_iff in H. destruct H as [A B]. apply ascii_eqb_spec in A. subst b.
      apply IH in B. destruct B as (t & ->). now exists t.
    + intros (t & E). assert (a = b /\ s = p ++ t) as [-> ->] by (cbn [app] in E; split; congruence).
      rewrite ascii_eqb_refl. cbn [andb]. apply IH. now exists t.
Qed.
Lemma prefixed_false p s : prefixed p s = false <-> ~ prefix_of p s.
Proof.
  rewrite <- prefixed_spec. destruct (prefixed p s); split; congruence.
Qed.
Lemma prefixed_refl p s : prefixed p (p ++ s) = true.
Proof. apply prefixed_spec. now exists s. Qed.
Lemma split_path_own dev p : split_path (location dev p) (Some dev) = (dev, p).
Proof.
  assert (U : forall path, split_path path (Some dev) =
    let '(devicepath, localpath) := first_rest path in
    if chars_eqb devicepath dev then (dev, localpath)
    else if prefixed dev path then
      (dev, if prefixed devsep (skipn (length dev) path) then skipn 2 (skipn (length dev) path)
            else skipn (length dev) path)
    else if nonempty localpath then (devicepath, localpath) else (dev, path)) by reflexivity.
  rewrite U. clear U.
  destruct (first_rest_cases (location dev p)) as [E | (d & l & E & Q)]; rewrite E; cbn [fst snd].
  - replace (chars_eqb (location dev p) dev) with false.
    + unfold location at 1. rewrite prefixed_refl. unfold location.
      rewrite skipn_app, skipn_all, Nat.sub_diag. reflexivity.
    + symmetry. apply ceqb_false. intros K. apply (f_equal (@length ascii)) in K.
      unfold location in K. rewrite !app_length in K. cbn [length devsep] in K. lia.
  - destruct (chars_eqb d dev) eqn:D.
    + apply ceqb_true in D. subst d. unfold location in Q. apply app_inv_head in Q. apply app_inv_head in Q.
      now subst l.
    + unfold location at 1. rewrite prefixed_refl. unfold location.
      rewrite skipn_app, skipn_all, Nat.sub_diag. reflexivity.
Qed.

Lemma last_sep_none r : ~ In colon r -> forall pos, last_sep pos r = None.
Proof.
  induction r as [|a r IH]; intros N pos; [reflexivity|]. destruct r as [|b r]; [reflexivity|].
  change (last_sep pos (a :: b :: r)) with
    (match last_sep (S pos) (b :: r) with
     | Some n => Some n
     | None => if Nat.leb 1 pos && ascii_eqb a colon && ascii_eqb b colon then Some (pos + 2) else None
     end).
  rewrite IH by (intros K; apply N; now right).
  rewrite (ascii_eqb_neq a colon) by (intros ->; apply N; now left).
  now rewrite Bool.andb_false_r.
Qed.
Lemma last_sep_end r : ~ In colon r -> forall pos, 1 <= pos + length r ->
  last_sep pos (r ++ devsep) = Some (pos + length r + 2).
Proof.
  induction r as [|a r IH]; intros N pos L.
  - cbn [app last_sep devsep]. cbn [length] in L. replace (Nat.leb 1 pos) with true by (symmetry; apply Nat.leb_le; lia).
    rewrite ascii_eqb_refl. cbn [andb length]. f_equal. lia.
  - assert (Ne : exists b t, r ++ devsep = b :: t) by (destruct r as [|b r]; [exists colon, [colon]|exists b, (r ++ devsep)]; reflexivity).
    destruct Ne as (b & t & E). cbn [app]. rewrite E.
    change (last_sep pos (a :: b :: t)) with
      (match last_sep (S pos) (b :: t) with
       | Some n => Some n
       | None => if Nat.leb 1 pos && ascii_eqb a colon && ascii_eqb b colon then Some (pos + 2) else None
       end).
    rewrite <- E, IH; [|intros K; apply N; now right|lia]. cbn [length]. f_equal. lia.
Qed.
Lemma devsplit_none k : forall acc s, ~ In colon s -> devsplit k acc s = [rev acc ++ s].
Proof.
  induction k as [|k IH]; intros acc s N; cbn [devsplit]; [reflexivity|].
  destruct s as [|c s]; [now rewrite app_nil_r|].
  assert (N' : ~ In colon s) by (intros K; apply N; now right).
  rewrite last_sep_none.
  - assert (G : rev (c :: acc) ++ s = rev acc ++ c :: s) by (cbn [rev]; now rewrite <- app_assoc).
    rewrite IH by exact N'. rewrite G. now destruct (ascii_eqb c dot).
  - intros K. apply N'. destruct (run_prefix s) as (t & ->). apply in_or_app. now left.
Qed.
Lemma run_word w s : ~ In slash w -> no_slash_run (w ++ s) = w ++ no_slash_run s.
Proof.
  induction w as [|c w IH]; intros N; [reflexivity|]. cbn [app no_slash_run].
  rewrite (proj2 (is_slash_false c)) by (intros ->; apply N; now left).
  rewrite IH by (intros K; apply N; now right). reflexivity.
Qed.
Lemma run_in w s : In slash w -> no_slash_run (w ++ s) = no_slash_run w.
Proof.
  induction w as [|c w IH]; intros N; [destruct N|]. cbn [app no_slash_run].
  destruct (is_slash c) eqn:E; [reflexivity|]. rewrite IH; [reflexivity|].
  destruct N as [-> | N]; [discriminate|exact N].
Qed.
Lemma devsplit_ext a : forall k acc e p, ~ In colon (a ++ dot :: e) -> e <> [] -> ~ In slash e ->
  isabs p = true -> length a + length e + 2 < k ->
  exists k', devsplit k acc (location (a ++ dot :: e) p) = (rev acc ++ a ++ dot :: e) :: devsplit k' [] p.
Proof.
  induction a as [|c a IH]; intros k acc e p N Ne S A L; (destruct k as [|k]; [lia|]).
  - exists k. unfold location. cbn [app] in *. cbn [devsplit]. rewrite ascii_eqb_refl.
    destruct p as [|q p]; [discriminate|]. cbn [isabs] in A. apply is_slash_spec in A. subst q.
    rewrite (run_word e) by exact S. change (no_slash_run (devsep ++ slash :: p)) with devsep.
    assert (Le : 1 <= length e) by (destruct e; [congruence|cbn [length]; lia]).
    rewrite last_sep_end; [|intros K; apply N; now right|cbn [Nat.add]; lia].
    cbn [Nat.add]. replace (length e + 2 - 2) with (length e) by lia.
    rewrite firstn_app, firstn_all, Nat.sub_diag. cbn [firstn]. rewrite app_nil_r.
    rewrite skipn_app, skipn_all2 by lia. replace (length e + 2 - length e) with 2 by lia. reflexivity.
  - cbn [length] in L. assert (N' : ~ In colon (a ++ dot :: e)) by (intros K; apply N; now right).
    destruct (IH k (c :: acc) e p N' Ne S A ltac:(lia)) as (k' & E).
    assert (G : rev (c :: acc) ++ a ++ dot :: e = rev acc ++ (c :: a) ++ dot :: e)
      by (cbn [rev]; now rewrite <- app_assoc).
    rewrite G in E. unfold location in *.
    change (((c :: a) ++ dot :: e) ++ devsep ++ p) with (c :: ((a ++ dot :: e) ++ devsep ++ p)).
    cbn [devsplit]. destruct (ascii_eqb c dot) eqn:D; [|exists k'; exact E].
    destruct (in_dec ascii_dec slash a) as [I|I].
    + rewrite last_sep_none; [exists k'; exact E|].
      rewrite run_in by (apply in_or_app; now left). rewrite run_in by exact I.
      intros K. apply N'. destruct (run_prefix a) as (t & ->). rewrite <- app_assoc.
      apply in_or_app. now left.
    + exists k. destruct p as [|q p]; [discriminate|]. cbn [isabs] in A. apply is_slash_spec in A. subst q.
      rewrite (run_word (a ++ dot :: e)).
      * change (no_slash_run (devsep ++ slash :: p)) with devsep.
        rewrite last_sep_end; [|exact N'|rewrite app_length; cbn [length Nat.add]; lia].
        cbn [Nat.add]. set (w := a ++ dot :: e). replace (length w + 2 - 2) with (length w) by lia.
        rewrite firstn_app, firstn_all, Nat.sub_diag. cbn [firstn]. rewrite app_nil_r.
        rewrite skipn_app, skipn_all2 by lia. replace (length w + 2 - length w) with 2 by lia. reflexivity.
      * intros K. apply in_app_or in K. destruct K as [K | [K | K]]; [auto|discriminate|auto].
Qed.
Lemma split_path_ext dev p : has_extension dev -> isabs p = true ->
  split_path (location dev p) None = (dev, p).
Proof.
  intros (N & a & e & -> & Ne & Se) A. unfold split_path.
  destruct (devsplit_ext a (S (length (location (a ++ dot :: e) p))) [] e p N Ne Se A) as (k & E).
  { unfold location. rewrite !app_length. cbn [length devsep]. lia. }
  rewrite E. cbn [rev app]. destruct (devsplit k [] p) as [|x l] eqn:D; [now apply devsplit_ne in D|].
  rewrite <- D, join_devsplit. cbn [rev app]. reflexivity.
Qed.
Lemma split_path_local dev p : ~ In colon p -> ~ prefix_of dev p -> split_path p (Some dev) = (dev, p).
Proof.
  intros N P. unfold split_path. rewrite devsplit_none by exact N. cbn [rev app].
  rewrite (proj2 (prefixed_false dev p) P).
  destruct (chars_eqb p dev) eqn:E; [|reflexivity].
  apply ceqb_true in E. subst p. destruct P. exists []. now rewrite app_nil_r.
Qed.

Section Cwd.
Context (cwd : chars).
Definition hgood (o : h5) : Prop := canonical (hdev o) /\ canonical (hpath o).

Lemma canonical_norm p : canonical p -> norm cwd p = p.
Proof. intros (k & l & G & ->). now apply norm_canonical. Qed.
Lemma canonical_abs p : canonical p -> isabs p = true.
Proof. intros (k & l & G & ->). now apply isabs_abs. Qed.
Lemma canonical_ne p : canonical p -> nonempty p = true.
Proof. intros (k & l & G & ->). now apply abs_path_ne. Qed.
Lemma hfactory_location o p : hgood o -> isabs p = true -> ~ In colon p -> ~ prefix_of (hdev o) p ->
  hfactory cwd o (location (hdev o) p) = Ok (mkH5 (hdev o) (norm cwd p)).
Proof.
  intros [D _] A N P. unfold hfactory. rewrite split_path_own. unfold new_h5.
  rewrite split_path_local, A by assumption. rewrite (canonical_ne _ D), (canonical_norm _ D). reflexivity.
Qed.
Lemma hfactory_local o p : hgood o -> isabs p = true -> ~ In colon p -> ~ prefix_of (hdev o) p ->
  hfactory cwd o p = Ok (mkH5 (hdev o) (norm cwd p)).
Proof.
  intros [D _] A N P. unfold hfactory. rewrite split_path_local by assumption. unfold new_h5.
  rewrite split_path_local, A by assumption. rewrite (canonical_ne _ D), (canonical_norm _ D). reflexivity.
Qed.
Lemma join2_chars a b c : In c (join2 a b) -> In c a \/ In c b \/ c = slash.
Proof.
  unfold join2. destruct (isabs b); [auto|].
  destruct ((match a with [] => true | _ => false end) || ends_slash a); intros H; apply in_app_or in H.
  - tauto.
  - destruct H as [H | [H | H]]; auto.
Qed.
Lemma hchild_child o v : hgood o -> ~ In colon (hpath o) -> ~ In colon v ->
  ~ prefix_of (hdev o) (join2 (hpath o) v) ->
  hchild cwd o v = Ok (mkH5 (hdev o) (child cwd (hpath o) v)).
Proof.
  intros G N1 N2 P. unfold hchild, child. apply hfactory_location; auto.
  - apply isabs_join. apply canonical_abs. apply G.
  - intros K. apply join2_chars in K. destruct K as [K | [K | K]]; [auto|auto|discriminate].
Qed.
Lemma hdetach_same o : hgood o -> has_extension (hdev o) -> hdetach cwd o = Ok o.
Proof.
  intros [D P] E. unfold hdetach, hlocation, new_h5.
  rewrite split_path_ext by (auto; now apply canonical_abs).
  rewrite (canonical_abs _ P), (canonical_ne _ D), (canonical_norm _ D), (canonical_norm _ P).
  now destruct o.
Qed.
End Cwd.
