(* The trimmed mean: order does not matter, and a tenth of wrong values neither. *)
From Verif Require Import BaseProofs MatProofs TransformProofs TransformSetProofs TransformRigidProofs TransformSpec.
Local Open Scope Qc_scope.

Lemma insert_In a l x : In x (insert_sorted a l) <-> x = a \/ In x l.
Proof.
  induction l as [|b l IH]; cbn [insert_sorted In]; [intuition congruence|].
  destruct (Qc_leb a b); cbn [In]; [intuition congruence|]. rewrite IH. intuition congruence.
Qed.
Lemma insert_sorted_ok a l : StronglySorted Qcle l -> StronglySorted Qcle (insert_sorted a l).
Proof.
  induction 1 as [|b l H IH F]; cbn [insert_sorted]; [constructor; constructor|].
  destruct (Qc_leb a b) eqn:E.
  - apply Qc_leb_le in E. constructor; [constructor; assumption|]. constructor; [exact E|].
    eapply Forall_impl; [|exact F]. intros x Hx. exact (Qcle_trans _ _ _ E Hx).
  - apply Qc_leb_gt in E. constructor; [exact IH|]. apply Forall_forall. intros x I. apply insert_In in I.
    destruct I as [->|I]; [apply Qclt_le_weak; exact E|]. rewrite Forall_forall in F. exact (F x I).
Qed.
Lemma sort_sorted l : StronglySorted Qcle (sort_values l).
Proof. induction l as [|a l IH]; [constructor|]. exact (insert_sorted_ok a _ IH). Qed.

Lemma sorted_unique l l' : StronglySorted Qcle l -> StronglySorted Qcle l' -> Permutation l l' -> l = l'.
Proof.
  intros H. revert l'. induction H as [|a l H IH F]; intros l' H' P.
  - apply Permutation_nil in P. congruence.
  - destruct l' as [|b l']; [apply Permutation_sym, Permutation_nil in P; discriminate P|].
    inversion H' as [|? ? H1 F']; subst.
    assert (E : a = b).
    { assert (I1 : In a (b :: l')) by (eapply Permutation_in; [exact P|left; reflexivity]).
      assert (I2 : In b (a :: l)) by (eapply Permutation_in; [apply Permutation_sym; exact P|left; reflexivity]).
      rewrite Forall_forall in F, F'. destruct I1 as [->|I1]; [reflexivity|]. destruct I2 as [->|I2]; [reflexivity|].
      exact (Qcle_antisym _ _ (F b I2) (F' a I1)). }
    subst b. f_equal. apply IH; [exact H1|]. exact (Permutation_cons_inv P).
Qed.

Lemma sort_perm_eq l l' : Permutation l l' -> sort_values l = sort_values l'.
Proof.
  intros P. apply sorted_unique; [apply sort_sorted|apply sort_sorted|]. rewrite !sort_perm. exact P.
Qed.
Theorem centroid_perm l l' : Permutation l l' -> centroid l = centroid l'.
Proof. intros P. unfold centroid. rewrite (sort_perm_eq _ _ P), (Permutation_length P). reflexivity. Qed.

Definition others (a : Qc) (l : list Qc) : nat := length (filter (fun v => negb (Qc_eqb v a)) l).
Lemma others_perm a l l' : Permutation l l' -> others a l = others a l'.
Proof.
  unfold others. induction 1 as [|x l l' _ IH|x y l|l l' l'' _ IH1 _ IH2]; cbn [filter]; try congruence.
  - destruct (negb (Qc_eqb x a)); cbn [length]; congruence.
  - destruct (negb (Qc_eqb x a)), (negb (Qc_eqb y a)); cbn [length]; reflexivity.
Qed.
Lemma others_app a l l' : others a (l ++ l') = (others a l + others a l')%nat.
Proof. unfold others. rewrite filter_app, app_length. reflexivity. Qed.
Lemma others_all a l : Forall (fun v => v <> a) l -> others a l = length l.
Proof.
  unfold others. induction 1 as [|x l H _ IH]; [reflexivity|]. cbn [filter].
  rewrite (proj2 (Qc_eqb_false _ _) H). cbn [negb length]. congruence.
Qed.
Lemma sorted_app_le p x q : StronglySorted Qcle (p ++ x :: q) -> Forall (fun v => v <= x) p /\ Forall (fun v => x <= v) q.
Proof.
  induction p as [|b p IH]; cbn [app]; intros H.
  - inversion H; subst. split; [constructor|assumption].
  - inversion H as [|? ? H1 F]; subst. destruct (IH H1) as [I1 I2]. split; [|exact I2]. constructor; [|exact I1].
    rewrite Forall_forall in F. apply F. apply in_or_app. right. left. reflexivity.
Qed.

Lemma middle_value a p x q cut : StronglySorted Qcle (p ++ x :: q) -> (cut <= length p)%nat -> (cut <= length q)%nat ->
  (others a (p ++ x :: q) <= cut)%nat -> x = a.
Proof.
  intros S Lp Lq O. destruct (sorted_app_le p x q S) as [Fp Fq].
  destruct (Qc_eqb x a) eqn:E; [apply Qc_eqb_spec; exact E|]. exfalso. apply Qc_eqb_false in E.
  change (x :: q) with ([x] ++ q) in O. rewrite !others_app in O.
  assert (Ox : others a [x] = 1%nat) by (apply (others_all a [x]); constructor; [exact E|constructor]).
  destruct (Qc_lt_le_dec_bool x a) as [C|C].
  - assert (Op : others a p = length p).
    { apply others_all. eapply Forall_impl; [|exact Fp]. intros v Hv ->. clear - Hv C. qclra. }
    lia.
  - assert (C' : a < x) by (clear - C E; apply Qcle_lt_or_eq in C; destruct C as [C|C]; [exact C|congruence]).
    assert (Oq : others a q = length q).
    { apply others_all. eapply Forall_impl; [|exact Fq]. intros v Hv ->. clear - Hv C'. qclra. }
    lia.
Qed.

Theorem centroid_robust a l : l <> [] -> (others a l <= length l / 10)%nat -> centroid l = Some a.
Proof.
  intros N O. unfold centroid. set (n := length l) in *. set (cut := (n / 10)%nat) in *.
  pose proof (sort_sorted l) as S. rewrite <- (others_perm a _ _ (sort_perm l)) in O.
  pose proof (Permutation_length (sort_perm l)) as L. fold n in L. set (s := sort_values l) in *. clearbody s.
  assert (B : (10 * cut <= n)%nat) by (apply Nat.mul_div_le; lia).
  assert (P : (0 < n)%nat) by (unfold n; destruct l; [contradiction|cbn; lia]).
  set (mid := firstn (n - cut - cut) (skipn cut s)).
  assert (LM : length mid = (n - cut - cut)%nat) by (unfold mid; rewrite firstn_length, skipn_length, L; lia).
  assert (F : Forall (fun x => id x = a) mid).
  { apply Forall_forall. intros x I. unfold id. apply in_split in I. destruct I as (m1 & m2 & E).
    assert (ES : s = (firstn cut s ++ m1) ++ x :: (m2 ++ skipn (n - cut - cut) (skipn cut s))).
    { rewrite <- (firstn_skipn cut s) at 1. rewrite <- (firstn_skipn (n - cut - cut) (skipn cut s)) at 1. fold mid. rewrite E.
      rewrite <- !app_assoc. cbn [app]. rewrite <- ?app_assoc. reflexivity. }
    apply (middle_value a (firstn cut s ++ m1) x (m2 ++ skipn (n - cut - cut) (skipn cut s)) cut).
    - rewrite <- ES. exact S.
    - rewrite app_length, firstn_length, L. lia.
    - rewrite app_length, !skipn_length, L. lia.
    - rewrite <- ES. exact O. }
  apply map_const_repeat in F. rewrite map_id in F. rewrite F, LM. apply mean_repeat. lia.
Qed.

Lemma others_le a l : (others a l <= length l)%nat.
Proof. unfold others. induction l as [|x l IH]; cbn [filter length]; [lia|]. destruct (negb (Qc_eqb x a)); cbn [length]; lia. Qed.
Lemma others_zero a l : Forall (fun v => v = a) l -> others a l = 0%nat.
Proof.
  unfold others. induction 1 as [|x l H _ IH]; [reflexivity|]. cbn [filter].
  rewrite (proj2 (Qc_eqb_spec _ _) H). cbn [negb]. exact IH.
Qed.

Lemma robust_values (f : keypoint -> Qc) a good bad kps : Permutation kps (good ++ bad) ->
  Forall (fun k => f k = a) good -> (length bad <= length kps / 10)%nat -> kps <> [] -> centroid (map f kps) = Some a.
Proof.
  intros P G B N. apply centroid_robust; [destruct kps; [contradiction|discriminate]|].
  rewrite map_length. rewrite (others_perm a _ _ (Permutation_map f P)), map_app, others_app.
  rewrite (others_zero a (map f good)).
  - pose proof (others_le a (map f bad)) as O. rewrite map_length in O. lia.
  - apply Forall_map. exact G.
Qed.

Theorem translation_robust lstsq svd x0 y0 tx ty kps good bad : kps <> [] -> Permutation kps (good ++ bad) ->
  exact_keypoints (Trn tx ty) good -> (length bad <= length kps / 10)%nat ->
  fromkeypoints lstsq svd (Trn x0 y0) kps = Ok (Some (Trn tx ty)).
Proof.
  intros NE P H B. unfold fromkeypoints, translation_fromkeypoints, minus_list.
  rewrite !map_length, Nat.eqb_refl. cbn [bind].
  assert (C : forall f g : keypoint -> Qc, List.combine (map f kps) (map g kps) = map (fun k => (f k, g k)) kps).
  { intros f g. clear. induction kps as [|k l IH]; [reflexivity|]. cbn. rewrite IH. reflexivity. }
  rewrite !C, !map_map. cbn [fst snd].
  rewrite (robust_values (fun k => xsrc_of k - xdest_of k) tx good bad kps P), (robust_values (fun k => ysrc_of k - ydest_of k) ty good bad kps P);
    try assumption; [reflexivity| |].
  - eapply Forall_impl; [|exact H]. intros [[xs ys] [xd yd]]. unfold ysrc_of, ydest_of. cbn [fst snd old_point].
    intros E. injection E as _ <-. ring.
  - eapply Forall_impl; [|exact H]. intros [[xs ys] [xd yd]]. unfold xsrc_of, xdest_of. cbn [fst snd old_point].
    intros E. injection E as <- _. ring.
Qed.

Lemma ex_robust : Permutation (ex_bad :: ex_goods) (ex_goods ++ [ex_bad]) /\ exact_keypoints (Trn 1 (Qc_of_Z 2)) ex_goods /\
  (length [ex_bad] <= length (ex_bad :: ex_goods) / 10)%nat.
Proof.
  split; [apply Permutation_cons_append|]. split; [|cbn; lia].
  apply Forall_map. apply Forall_forall. intros k _. unfold ex_good. cbn [fst snd old_point].
  f_equal.
Qed.
