(* The lemmas behind the theorems of PathProps, in the terms of PathSpec. *)
From Verif Require Import Base Text TextProofs PathModel PathSpec PathProofs PathDevProofs.
Local Open Scope nat_scope.

Lemma slashes_count s n : slashes s n -> count s = n.
Proof.
  intros (t & -> & N). induction n as [|n IH]; cbn [repeat app count].
  - destruct t as [|c t]; [reflexivity|]. cbn [count].
    rewrite (proj2 (is_slash_false c)); [reflexivity|]. intros ->. now apply (N t).
  - rewrite is_slash_slash. now rewrite IH.
Qed.
Lemma slashes_leading s n : slashes s n -> 0 < n -> leading s = root n.
Proof.
  intros H L. rewrite leading_count, (slashes_count s n H). destruct n as [|[|[|n]]]; try reflexivity. lia.
Qed.
Lemma slashes_abs s n : slashes s n -> 0 < n -> isabs s = true.
Proof. intros H L. apply isabs_count. now rewrite (slashes_count s n H). Qed.
Lemma slashes_rel s : slashes s 0 -> isabs s = false.
Proof. intros H. apply nonabs_count. now apply slashes_count. Qed.

Lemma norm_fact cwd m lc s n ls : slashes cwd m -> 0 < m -> pieces cwd lc -> slashes s n -> pieces s ls ->
  (0 < n -> exists d, walk [] ls d /\ Forall proper d /\ norm cwd s = abs_path (root n) d) /\
  (n = 0 -> exists d, walk [] (lc ++ ls) d /\ Forall proper d /\ norm cwd s = abs_path (root m) d).
Proof.
  intros Sc Lm Pc Ss Ps. apply pieces_split in Pc, Ps. split.
  - intros L. destruct (norm_abs cwd s (slashes_abs s n Ss L)) as (d & W & G & E).
    rewrite (slashes_leading s n Ss L) in E. rewrite Ps in W. exists d. split; [exact W|]. split; [apply G|exact E].
  - intros ->. destruct (norm_rel cwd (slashes_abs cwd m Sc Lm) s (slashes_rel s Ss)) as (d & W & G & E).
    rewrite (slashes_leading cwd m Sc Lm) in E. rewrite Ps, Pc in W.
    exists d. split; [exact W|]. split; [apply G|exact E].
Qed.
Lemma walk_unique d ws a b : Forall proper d -> walk d ws a -> walk d ws b -> a = b.
Proof.
  intros P A B. destruct (walk_F _ _ _ A P) as [X _]. destruct (walk_F _ _ _ B P) as [Y _].
  rewrite X in Y. apply (f_equal (@rev chars)) in Y. now rewrite !rev_involutive in Y.
Qed.
Lemma norm_canonical_result cwd s : isabs cwd = true -> canonical (norm cwd s).
Proof.
  intros A. destruct (isabs s) eqn:E.
  - destruct (norm_abs cwd s E) as (d & _ & G & ->). now exists (leading s), d.
  - destruct (norm_rel cwd A s E) as (d & _ & G & ->). now exists (leading cwd), d.
Qed.
Lemma norm_fixed cwd p : canonical p -> norm cwd p = p.
Proof. apply canonical_norm. Qed.
Lemma norm_twice cwd s : isabs cwd = true -> norm cwd (norm cwd s) = norm cwd s.
Proof. intros A. apply norm_fixed. now apply norm_canonical_result. Qed.
Lemma child_fact cwd k l v lv : good k l -> slashes v 0 -> pieces v lv ->
  exists d, walk l lv d /\ Forall proper d /\ child cwd (abs_path k l) v = abs_path k d.
Proof.
  intros G S P. apply pieces_split in P. destruct (child_rel cwd k l v G (slashes_rel v S)) as (d & W & Gd & E).
  rewrite P in W. exists d. split; [exact W|]. split; [apply Gd|exact E].
Qed.
Lemma child_abs_fact cwd p v n : slashes v n -> 0 < n -> child cwd p v = norm cwd v.
Proof. intros S L. apply child_abs. now apply (slashes_abs v n). Qed.
Lemma parts_fact cwd k l w : good k (l ++ [w]) ->
  parent cwd (abs_path k (l ++ [w])) = abs_path k l /\ name (abs_path k (l ++ [w])) = w /\
  child cwd (abs_path k l) w = abs_path k (l ++ [w]).
Proof.
  intros G. split; [now apply parent_snoc|]. split; [now apply (name_snoc k)|].
  apply child_name; [now apply good_app in G|]. destruct G as [_ P]. apply Forall_app in P. destruct P as [_ P].
  now inversion P.
Qed.
Lemma root_fact cwd k : k = 1 \/ k = 2 ->
  parent cwd (repeat slash k) = repeat slash k /\ name (repeat slash k) = [].
Proof. intros K. split; [now apply (parent_root cwd k)|now apply (name_root k)]. Qed.
Lemma sibling_fact cwd k l w v : good k (l ++ [w]) -> proper v ->
  sibling cwd (abs_path k (l ++ [w])) v = abs_path k (l ++ [v]).
Proof.
  intros G P. unfold sibling. rewrite (proper_nonabs v P), parent_snoc by exact G.
  apply child_name; [now apply good_app in G|exact P].
Qed.
Lemma relpath_fact cwd k a b : good k a -> good k b ->
  child cwd (abs_path k a) (relpath cwd (abs_path k a) (abs_path k b)) = abs_path k b.
Proof. apply relpath_rel. Qed.
Lemma relpath_given cwd p v : slashes v 0 -> relpath cwd p v = v.
Proof. intros S. unfold relpath. now rewrite (slashes_rel v S). Qed.
Lemma iterup_fact cwd k l n : good k l -> length l < n ->
  iterup cwd n (abs_path k l) = Some (rev (map (fun i => abs_path k (firstn i l)) (seq 0 (S (length l))))).
Proof. intros G L. rewrite iterup_prefixes by assumption. now rewrite prefixes_seq. Qed.
Lemma common_fact cwd k a b n : good k a -> good k b -> length a < n -> length b < n ->
  exists c, longest_common a b c /\ common cwd n (abs_path k a) (abs_path k b) = Some (Some (abs_path k c)).
Proof.
  intros Ga Gb La Lb. exists (common_prefix a b). split; [apply common_prefix_longest|].
  now apply common_same.
Qed.
Lemma no_slash0 v : isabs v = false -> slashes v 0.
Proof.
  intros A. exists v. split; [reflexivity|]. intros u ->. discriminate.
Qed.

Lemma In_tail c l : In c (tail_of l) -> c = slash \/ exists w, In w l /\ In c w.
Proof.
  induction l as [|w l IH]; [intros []|]. cbn [tail_of]. intros [H | H]; [now left|].
  apply in_app_or in H. destruct H as [H | H].
  - right. exists w. split; [now left|exact H].
  - destruct (IH H) as [K | (x & K & L)]; [now left|]. right. exists x. split; [now right|exact L].
Qed.
Lemma tail_In c w l : In w l -> In c w -> In c (tail_of l).
Proof.
  induction l as [|x l IH]; [intros []|]. cbn [tail_of]. intros [-> | H] C; right; apply in_or_app; auto.
Qed.
Lemma In_abs c k l : In c (abs_path k l) -> c = slash \/ exists w, In w l /\ In c w.
Proof.
  destruct l as [|w l]; cbn [abs_path].
  - intros H. left. now apply repeat_spec in H.
  - intros H. apply in_app_or in H. destruct H as [H | H]; [left; now apply repeat_spec in H|].
    apply in_app_or in H. destruct H as [H | H]; [right; exists w; split; [now left|exact H]|].
    apply In_tail in H. destruct H as [K | (x & K & L)]; [now left|]. right. exists x. split; [now right|exact L].
Qed.
Lemma abs_In c k w l : In w l -> In c w -> In c (abs_path k l).
Proof.
  destruct l as [|x l]; [intros []|]. cbn [abs_path].
  intros [-> | H] C; apply in_or_app; right; apply in_or_app; [now left|]. right. now apply (tail_In c w).
Qed.
Lemma parent_chars cwd k l c : good k l -> c <> slash -> In c (parent cwd (abs_path k l)) -> In c (abs_path k l).
Proof.
  intros G N H. destruct l as [|w l _] using rev_ind.
  - now rewrite parent_root in H by apply G.
  - rewrite parent_snoc in H by exact G. apply In_abs in H. destruct H as [H | (x & H & L)]; [congruence|].
    apply (abs_In c k x); [apply in_or_app; now left|exact L].
Qed.
Lemma hsibling_fact cwd o v : h5_canonical o -> ~ In colon (hpath o) -> proper v -> ~ In colon v ->
  ~ prefix_of (hdev o) (join2 (hpath o) pardir) ->
  ~ prefix_of (hdev o) (join2 (parent cwd (hpath o)) v) ->
  hsibling cwd o v = Ok (mkH5 (hdev o) (sibling cwd (hpath o) v)).
Proof.
  intros G N1 P N2 H1 H2. unfold hsibling.
  rewrite split_path_local; [|exact N2|].
  - rewrite ceqb_refl, (proper_nonabs v P). cbn [andb negb]. unfold hparent.
    rewrite hchild_child; [|exact G|exact N1| |exact H1].
    + change (child cwd (hpath o) pardir) with (parent cwd (hpath o)) in *.
      rewrite hchild_child; cbn [hdev hpath].
      * unfold sibling. now rewrite (proper_nonabs v P).
      * destruct G as [D (k & l & Gl & E)]. split; [exact D|]. cbn [hpath]. rewrite E.
        destruct (child_rel cwd k l pardir Gl eq_refl) as (d & _ & Gd & Ed). exists k, d. split; [exact Gd|exact Ed].
      * destruct G as [_ (k & l & Gl & E)]. rewrite E in *. intros K. apply N1.
        apply (parent_chars cwd k l); [exact Gl|discriminate|exact K].
      * exact N2.
      * exact H2.
    + intros [K | [K | []]]; discriminate.
  - intros (t & E). destruct G as [D _]. apply canonical_abs in D.
    pose proof (proper_nonabs v P) as A. rewrite E in A. destruct (hdev o); [discriminate|].
    cbn [isabs app] in *. congruence.
Qed.
