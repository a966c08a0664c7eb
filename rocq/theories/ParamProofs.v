(* Proofs about the links between the nodes. *)
From Verif Require Import Base BaseProofs ParamModel ParamSpec.
Local Open Scope nat_scope.

Lemma opt_eqb_spec a b : opt_eqb a b = true <-> a = b.
Proof.
  destruct a as [m|], b as [n|]; cbn [opt_eqb]; try (split; discriminate || reflexivity).
  rewrite Nat.eqb_eq. split; [intros -> | intros E; injection E as ->]; reflexivity.
Qed.
Lemma opt_eqb_neq a b : opt_eqb a b = false <-> a <> b.
Proof. rewrite <- Bool.not_true_iff_false, opt_eqb_spec. reflexivity. Qed.

Lemma existsb_In x l : existsb (Nat.eqb x) l = true <-> In x l.
Proof.
  rewrite existsb_exists. split.
  - intros (y & Hy & E). apply Nat.eqb_eq in E. subst. exact Hy.
  - intros H. exists x. split; [exact H | apply Nat.eqb_refl].
Qed.
Lemma existsb_notIn x l : existsb (Nat.eqb x) l = false <-> ~ In x l.
Proof. rewrite <- Bool.not_true_iff_false, existsb_In. reflexivity. Qed.

(* ---- cells ---- *)
Lemma alter_length h x f : length (alter h x f) = length h.
Proof. unfold alter. destruct (nth_error h x); [apply set_nth_length | reflexivity]. Qed.
Lemma nth_alter h x f y : nth_error (alter h x f) y = if Nat.eqb y x then option_map f (nth_error h x) else nth_error h y.
Proof.
  unfold alter. destruct (nth_error h x) as [c|] eqn:E.
  - rewrite nth_error_set_nth. destruct (Nat.eqb y x) eqn:Ey; [|reflexivity].
    assert (L : x < length h) by (apply nth_error_Some; congruence).
    apply Nat.ltb_lt in L. rewrite L. reflexivity.
  - destruct (Nat.eqb y x) eqn:Ey; [|reflexivity]. apply Nat.eqb_eq in Ey. subst. exact E.
Qed.

Lemma under_parent h y p : y < length h -> (under h y p <-> parent h y = p).
Proof.
  intros L. unfold under, parent. destruct (nth_error h y) as [c|] eqn:E.
  - split; [intros (d & Ed & H); congruence | intros H; exists c; split; [reflexivity | exact H]].
  - apply nth_error_None in E. lia.
Qed.
Lemma under_lt h y p : under h y p -> y < length h.
Proof. intros (c & E & _). apply nth_error_Some. congruence. Qed.
Lemma under_fun h y p q : under h y p -> under h y q -> p = q.
Proof. intros (c & E & <-) (d & F & <-). congruence. Qed.

Lemma chain_lt h x l : chain h x l -> x < length h.
Proof. intros []; eapply under_lt; eassumption. Qed.
Lemma chain_fun h x l l' : chain h x l -> chain h x l' -> l = l'.
Proof.
  intros H. revert l'. induction H as [x U|x p l U H IH]; intros l' K; inversion K as [y V|y q m V M]; subst.
  - reflexivity.
  - pose proof (under_fun _ _ _ _ U V). discriminate.
  - pose proof (under_fun _ _ _ _ U V). discriminate.
  - pose proof (under_fun _ _ _ _ U V) as E. injection E as <-. f_equal. apply IH. exact M.
Qed.
Lemma chain_head h x l : chain h x l -> exists t, l = x :: t.
Proof. intros []; eexists; reflexivity. Qed.
Lemma chain_self h x l : chain h x l -> In x l.
Proof. intros []; left; reflexivity. Qed.
Lemma chain_tail h x l a y b : chain h x l -> l = a ++ y :: b -> chain h y (y :: b).
Proof.
  intros H. revert a. induction H as [x U|x p l U H IH]; intros a E.
  - destruct a as [|z a]; cbn in E.
    + injection E as <- <-. constructor. exact U.
    + injection E as _ E. destruct a; discriminate.
  - destruct a as [|z a]; cbn in E.
    + injection E as <- <-. econstructor; eassumption.
    + injection E as _ E. exact (IH a E).
Qed.
Lemma chain_In_chain h x l y : chain h x l -> In y l -> exists a b, l = a ++ y :: b /\ chain h y (y :: b).
Proof.
  intros H I. apply in_split in I. destruct I as (a & b & E). exists a, b. split; [exact E|].
  exact (chain_tail _ _ _ _ _ _ H E).
Qed.
Lemma chain_all_lt h x l y : chain h x l -> In y l -> y < length h.
Proof. intros H I. destruct (chain_In_chain _ _ _ _ H I) as (a & b & _ & C). exact (chain_lt _ _ _ C). Qed.
Lemma chain_NoDup h x l : chain h x l -> NoDup l.
Proof.
  intros H. induction H as [x U|x p l U H IH].
  - constructor; [intros [] | constructor].
  - constructor; [|exact IH]. intros I.
    destruct (chain_In_chain _ _ _ _ H I) as (a & b & E & C).
    assert (K : chain h x (x :: l)) by (econstructor; eassumption).
    pose proof (chain_fun _ _ _ _ C K) as F. injection F as ->.
    apply (f_equal (@length _)) in E. rewrite app_length in E. cbn in E. lia.
Qed.
Lemma NoDup_le (l : list nat) n : NoDup l -> (forall y, In y l -> y < n) -> length l <= n.
Proof.
  intros N B. rewrite <- (seq_length n 0). apply NoDup_incl_length; [exact N|].
  intros y I. apply in_seq. specialize (B y I). lia.
Qed.
Lemma chain_length h x l : chain h x l -> length l <= length h.
Proof. intros H. apply NoDup_le; [exact (chain_NoDup _ _ _ H) | intros y; exact (chain_all_lt _ _ _ _ H)]. Qed.

Lemma climb_chain h x l n : chain h x l -> length l <= n -> climb n h x = Ok l.
Proof.
  intros H. revert n. induction H as [x U|x p l U H IH]; intros n L; (destruct n as [|n]; [cbn in L; lia|]); cbn [climb].
  - rewrite (proj1 (under_parent _ _ _ (under_lt _ _ _ U)) U). reflexivity.
  - rewrite (proj1 (under_parent _ _ _ (under_lt _ _ _ U)) U), (IH n) by (cbn in L; lia). reflexivity.
Qed.
Lemma iter_up_chain h x l : chain h x l -> iter_up h x = Ok l.
Proof. intros H. apply climb_chain; [exact H | exact (chain_length _ _ _ H)]. Qed.

Lemma linked_chain h x : linked h -> x < length h -> exists l, chain h x l.
Proof. intros [H _]. apply H. Qed.
Lemma linked_down h p c : linked h -> nth_error h p = Some c -> NoDup (down c) /\ forall y, In y (down c) <-> under h y (Some p).
Proof. intros [_ H]. apply H. Qed.
Lemma linked_children h p y : linked h -> (In y (children h p) <-> under h y (Some p)).
Proof.
  intros L. unfold children. destruct (nth_error h p) as [c|] eqn:E; [exact (proj2 (linked_down _ _ _ L E) y)|].
  split; [intros [] | intros U].
  destruct (linked_chain h y L (under_lt _ _ _ U)) as [l C]. inversion C as [z V|z q m V M]; subst.
  - pose proof (under_fun _ _ _ _ U V). discriminate.
  - pose proof (under_fun _ _ _ _ U V) as F. injection F as <-. apply chain_lt in M. apply nth_error_None in E. lia.
Qed.
Lemma children_NoDup h p : linked h -> NoDup (children h p).
Proof. intros L. unfold children. destruct (nth_error h p) as [c|] eqn:E; [exact (proj1 (linked_down _ _ _ L E)) | constructor]. Qed.

Lemma linked_up_chain h x p : linked h -> under h x (Some p) -> exists l, chain h p l /\ chain h x (x :: l).
Proof.
  intros L U. destruct (linked_chain h x L (under_lt _ _ _ U)) as [l C]. inversion C as [z V|z q m V M]; subst.
  - pose proof (under_fun _ _ _ _ U V). discriminate.
  - pose proof (under_fun _ _ _ _ U V) as F. injection F as <-. exists m. split; assumption.
Qed.

(* the nodes below x: those with x on their way to the top *)
Lemma mapM_all {A B} (f : A -> result B) l : (forall a, In a l -> exists b, f a = Ok b) -> exists bs, mapM f l = Ok bs.
Proof.
  induction l as [|a l IH]; intros H; cbn [mapM].
  - exists []. reflexivity.
  - destruct (H a (or_introl eq_refl)) as [b Eb]. destruct IH as [bs Es]; [intros c I; apply H; right; exact I|].
    rewrite Eb, Es. exists (b :: bs). reflexivity.
Qed.
Lemma mapM_In {A B} (f : A -> result B) l bs b : mapM f l = Ok bs -> (In b bs <-> exists a, In a l /\ f a = Ok b).
Proof.
  revert bs. induction l as [|a l IH]; intros bs; cbn [mapM].
  - intros E. injection E as <-. split; [intros [] | intros (a & [] & _)].
  - destruct (f a) as [c|e] eqn:Ea; cbn [bind]; [|discriminate].
    destruct (mapM f l) as [cs|e] eqn:El; cbn [bind]; [|discriminate]. intros E. injection E as <-. cbn [In].
    rewrite (IH cs eq_refl). split.
    + intros [<- | (a' & I & E)]; [exists a; split; [left; reflexivity | exact Ea] | exists a'; split; [right; exact I | exact E]].
    + intros (a' & [<- | I] & E); [left; congruence | right; exists a'; split; assumption].
Qed.

Lemma descend_Ok h n x l : linked h -> chain h x l -> length h < n + length l -> exists d, descend n h x = Ok d.
Proof.
  intros L. revert x l. induction n as [|n IH]; intros x l C B.
  - pose proof (chain_length _ _ _ C). cbn in B. lia.
  - cbn [descend]. destruct (mapM_all (descend n h) (children h x)) as [ls E].
    + intros y I. apply (linked_children _ _ _ L) in I. apply (IH y (y :: l)); [econstructor; eassumption | cbn [length]; lia].
    + rewrite E. eexists. reflexivity.
Qed.
Lemma descend_sound h n x d y : linked h -> x < length h -> descend n h x = Ok d -> In y d -> at_or_below h x y.
Proof.
  intros L. revert x d. induction n as [|n IH]; intros x d X; [discriminate|]. cbn [descend].
  destruct (mapM (descend n h) (children h x)) as [ls|e] eqn:E; cbn [bind]; [|discriminate]. intros F I. injection F as <-.
  destruct I as [<- | I].
  - destruct (linked_chain h x L X) as [l C]. exists l. split; [exact C | exact (chain_self _ _ _ C)].
  - apply in_concat in I. destruct I as (d & Id & Iy). apply (mapM_In _ _ _ _ E) in Id. destruct Id as (c & Ic & Ed).
    apply (linked_children _ _ _ L) in Ic.
    destruct (IH c d (under_lt _ _ _ Ic) Ed Iy) as (l & C & Il). exists l. split; [exact C|].
    destruct (chain_In_chain _ _ _ _ C Il) as (a & b & El & Cc). inversion Cc as [z V|z q m V M]; subst.
    + pose proof (under_fun _ _ _ _ Ic V). discriminate.
    + pose proof (under_fun _ _ _ _ Ic V) as G. injection G as <-. apply in_or_app. right. right. exact (chain_self _ _ _ M).
Qed.
Lemma descend_complete h n x d y a b : linked h -> descend n h x = Ok d -> chain h y (a ++ x :: b) -> In y d.
Proof.
  intros L. revert x d a b. induction n as [|n IH]; intros x d a b; [discriminate|]. cbn [descend].
  destruct (mapM (descend n h) (children h x)) as [ls|e] eqn:E; cbn [bind]; [|discriminate]. intros F C. injection F as <-.
  destruct a as [|z a].
  - destruct (chain_head _ _ _ C) as [t T]. injection T as -> _. left. reflexivity.
  - right. destruct (@exists_last _ (z :: a) ltac:(discriminate)) as (a' & c & Ea). rewrite Ea in *. clear z a Ea.
    rewrite <- app_assoc in C. cbn [app] in C.
    pose proof (chain_tail _ _ _ _ _ _ C eq_refl) as Cc.
    assert (U : under h c (Some x)).
    { inversion Cc as [|z q m V M]; subst. destruct (chain_head _ _ _ M) as [t T]. injection T as -> _. exact V. }
    apply (linked_children _ _ _ L) in U. apply in_concat.
    destruct (descend n h c) as [dc|e] eqn:Ec.
    + exists dc. split; [apply (mapM_In _ _ _ _ E); exists c; split; assumption | exact (IH c dc a' (x :: b) Ec C)].
    + exfalso. clear -E Ec U. revert ls E. induction (children h x) as [|k ks IHk]; intros ls; [destruct U|]. cbn [mapM].
      destruct U as [-> | U].
      * rewrite Ec. discriminate.
      * destruct (descend n h k); cbn [bind]; [|discriminate]. destruct (mapM (descend n h) ks) eqn:Em; cbn [bind]; [|discriminate].
        intros _. exact (IHk U _ eq_refl).
Qed.

Lemma iter_down_spec h x : linked h -> x < length h -> exists d, iter_down h x = Ok d /\ forall y, In y d <-> at_or_below h x y.
Proof.
  intros L X. destruct (linked_chain h x L X) as [l C].
  destruct (descend_Ok h (length h) x l L C) as [d D].
  { destruct (chain_head _ _ _ C) as [t ->]. cbn [length]. lia. }
  exists d. split; [exact D|]. intros y. split.
  - exact (descend_sound h _ x d y L X D).
  - intros (m & Cy & I). destruct (chain_In_chain _ _ _ _ Cy I) as (a & b & -> & _). exact (descend_complete h _ x d y a b L D Cy).
Qed.

(* ---- a node gets a new parent ---- *)
Definition payload (c : pnode) : pnode := with_down (with_up c None) [].
Lemma payload_kept h h' : (forall y, y < length h -> option_map payload (nth_error h' y) = option_map payload (nth_error h y)) -> kept h h'.
Proof.
  intros H x d f s (c & E & <- & <- & <-). assert (L : x < length h) by (apply nth_error_Some; congruence).
  specialize (H x L). rewrite E in H. cbn in H. destruct (nth_error h' x) as [c'|] eqn:E'; [|discriminate]. cbn in H.
  injection H as Hd Hf Hs. exists c'. repeat (split; [assumption|]). assumption.
Qed.
Lemma kept_refl h : kept h h.
Proof. intros x d f s H. exact H. Qed.
Lemma kept_trans h h' h'' : kept h h' -> kept h' h'' -> kept h h''.
Proof. intros A B x d f s H. exact (B _ _ _ _ (A _ _ _ _ H)). Qed.

Lemma newparent_length h x p : length (newparent h x p) = length h.
Proof.
  unfold newparent. destruct p; rewrite ?alter_length; destruct (parent h x); rewrite ?alter_length; reflexivity.
Qed.
Lemma nth_newparent h x p y : x < length h -> p <> Some x -> parent h x <> Some x ->
  nth_error (newparent h x p) y =
  option_map (fun c => mk_pnode (data c)
     (if Nat.eqb y x then p else up c)
     (let l := if opt_eqb (parent h x) (Some y) then filter (fun z => negb (Nat.eqb z x)) (down c) else down c in
      if opt_eqb p (Some y) then l ++ [x] else l)
     (fresh c) (last c)) (nth_error h y).
Proof.
  intros X Px Qx. unfold newparent.
  assert (R : forall c : pnode, c = mk_pnode (data c) (up c) (down c) (fresh c) (last c)) by (intros []; reflexivity).
  destruct (parent h x) as [q|] eqn:Q; (destruct p as [n|]; rewrite ?nth_alter; [destruct (Nat.eqb y n) eqn:Yn|]; rewrite ?nth_alter).
  - apply Nat.eqb_eq in Yn. subst n. destruct (Nat.eqb y x) eqn:Yx; [apply Nat.eqb_eq in Yx; congruence|].
    destruct (Nat.eqb y q) eqn:Yq.
    + apply Nat.eqb_eq in Yq. subst q. destruct (nth_error h y) as [c|]; cbn; [|reflexivity]. rewrite Nat.eqb_refl. reflexivity.
    + destruct (nth_error h y) as [c|]; cbn; [|reflexivity]. rewrite Nat.eqb_refl, (Nat.eqb_sym q y), Yq. reflexivity.
  - destruct (Nat.eqb y x) eqn:Yx.
    + apply Nat.eqb_eq in Yx. subst y. rewrite ?nth_alter. destruct (Nat.eqb x q) eqn:Xq; [apply Nat.eqb_eq in Xq; congruence|].
      destruct (nth_error h x) as [c|]; cbn; [|reflexivity]. rewrite (Nat.eqb_sym q x), Xq, (Nat.eqb_sym n x), Yn. reflexivity.
    + rewrite ?nth_alter. destruct (Nat.eqb y q) eqn:Yq.
      * apply Nat.eqb_eq in Yq. subst q. destruct (nth_error h y) as [c|]; cbn; [|reflexivity]. rewrite Nat.eqb_refl, (Nat.eqb_sym n y), Yn. reflexivity.
      * destruct (nth_error h y) as [c|]; cbn; [|reflexivity]. rewrite (Nat.eqb_sym q y), Yq, (Nat.eqb_sym n y), Yn, <- R. reflexivity.
  - destruct (Nat.eqb y x) eqn:Yx.
    + apply Nat.eqb_eq in Yx. subst y. rewrite ?nth_alter. destruct (Nat.eqb x q) eqn:Xq; [apply Nat.eqb_eq in Xq; congruence|].
      destruct (nth_error h x) as [c|]; cbn; [|reflexivity]. rewrite (Nat.eqb_sym q x), Xq. reflexivity.
    + rewrite ?nth_alter. destruct (Nat.eqb y q) eqn:Yq.
      * apply Nat.eqb_eq in Yq. subst q. destruct (nth_error h y) as [c|]; cbn; [|reflexivity]. rewrite Nat.eqb_refl. reflexivity.
      * destruct (nth_error h y) as [c|]; cbn; [|reflexivity]. rewrite (Nat.eqb_sym q y), Yq, <- R. reflexivity.
  - apply Nat.eqb_eq in Yn. subst n. destruct (Nat.eqb y x) eqn:Yx; [apply Nat.eqb_eq in Yx; congruence|].
    destruct (nth_error h y) as [c|]; cbn; [|reflexivity]. rewrite Nat.eqb_refl. reflexivity.
  - destruct (Nat.eqb y x) eqn:Yx.
    + apply Nat.eqb_eq in Yx. subst y. destruct (nth_error h x) as [c|]; cbn; [|reflexivity]. rewrite (Nat.eqb_sym n x), Yn. reflexivity.
    + destruct (nth_error h y) as [c|]; cbn; [|reflexivity]. rewrite (Nat.eqb_sym n y), Yn, <- R. reflexivity.
  - destruct (Nat.eqb y x) eqn:Yx.
    + apply Nat.eqb_eq in Yx. subst y. destruct (nth_error h x) as [c|]; cbn; reflexivity.
    + destruct (nth_error h y) as [c|]; cbn; [|reflexivity]. rewrite <- R. reflexivity.
Qed.

Lemma under_newparent h x p y q : x < length h -> p <> Some x -> parent h x <> Some x ->
  (under (newparent h x p) y q <-> y < length h /\ (if Nat.eqb y x then q = p else under h y q)).
Proof.
  intros X Px Qx. unfold under. rewrite (nth_newparent h x p y X Px Qx). destruct (nth_error h y) as [c|] eqn:E; cbn [option_map].
  - assert (L : y < length h) by (apply nth_error_Some; congruence). split.
    + intros (d & Ed & U). injection Ed as <-. cbn [up] in U. split; [exact L|]. destruct (Nat.eqb y x); [symmetry; exact U|].
      exists c. split; [reflexivity | exact U].
    + intros (_ & U). eexists. split; [reflexivity|]. cbn [up]. destruct (Nat.eqb y x); [symmetry; exact U|].
      destruct U as (d & Ed & U). congruence.
  - split; [intros (d & Ed & _); discriminate|]. intros (L & _). apply nth_error_None in E. lia.
Qed.

Lemma not_own_parent h x : linked h -> x < length h -> parent h x <> Some x.
Proof.
  intros L X E. apply (under_parent _ _ _ X) in E. destruct (linked_up_chain h x x L E) as (l & C & D).
  pose proof (chain_fun _ _ _ _ C D) as F. apply (f_equal (@length _)) in F. cbn in F. lia.
Qed.

(* the chains that avoid x stay *)
Lemma chain_avoid h h' y l : (forall z p, In z l -> under h z p -> under h' z p) -> chain h y l -> chain h' y l.
Proof.
  intros H C. induction C as [y U|y p l U C IH].
  - constructor. apply H; [left; reflexivity | exact U].
  - apply (Chain_step _ _ p); [apply H; [left; reflexivity | exact U]|]. apply IH. intros z q I. apply H. right. exact I.
Qed.

Lemma linked_newparent h x p : linked h -> x < length h -> (forall n, p = Some n -> exists l, chain h n l /\ ~ In x l) ->
  linked (newparent h x p).
Proof.
  intros L X P.
  assert (Qx : parent h x <> Some x) by (exact (not_own_parent _ _ L X)).
  assert (Px : p <> Some x). { intros E. destruct (P x E) as (l & C & N). apply N. exact (chain_self _ _ _ C). }
  pose proof (under_newparent h x p) as U.
  assert (T : exists m, chain (newparent h x p) x (x :: m)).
  { destruct p as [n|].
    - destruct (P n eq_refl) as (l & C & N). exists l. apply (Chain_step _ _ n).
      + apply (U x (Some n) X Px Qx). rewrite Nat.eqb_refl. split; [exact X | reflexivity].
      + apply (chain_avoid h); [|exact C]. intros z q I V. apply (U z q X Px Qx). split; [exact (under_lt _ _ _ V)|].
        destruct (Nat.eqb z x) eqn:Z; [apply Nat.eqb_eq in Z; congruence | exact V].
    - exists []. constructor. apply (U x None X Px Qx). rewrite Nat.eqb_refl. split; [exact X | reflexivity]. }
  destruct T as [m T]. split.
  - intros y Y. rewrite newparent_length in Y. destruct (linked_chain h y L Y) as [l C].
    induction C as [y V|y q l V C IH].
    + destruct (Nat.eqb y x) eqn:Yx; [apply Nat.eqb_eq in Yx; subst; exists (x :: m); exact T|].
      exists [y]. constructor. apply (U y None X Px Qx). rewrite Yx. split; assumption.
    + destruct (Nat.eqb y x) eqn:Yx; [apply Nat.eqb_eq in Yx; subst; exists (x :: m); exact T|].
      destruct (IH (chain_lt _ _ _ C)) as [k K]. exists (y :: k). apply (Chain_step _ _ q); [|exact K].
      apply (U y (Some q) X Px Qx). rewrite Yx. split; assumption.
  - intros q c E. rewrite (nth_newparent h x p q X Px Qx) in E. destruct (nth_error h q) as [c0|] eqn:E0; [|discriminate].
    cbn [option_map] in E. injection E as <-. cbn [down].
    destruct (linked_down h q c0 L E0) as [N D].
    set (l0 := if opt_eqb (parent h x) (Some q) then filter (fun z => negb (Nat.eqb z x)) (down c0) else down c0).
    assert (I0 : forall y, In y l0 <-> y <> x /\ In y (down c0)).
    { intros y. unfold l0. destruct (opt_eqb (parent h x) (Some q)) eqn:Eq.
      - rewrite filter_In, negb_true_iff, Nat.eqb_neq. tauto.
      - split; [|tauto]. intros I. split; [|exact I]. intros ->. apply D in I. apply (under_parent _ _ _ X) in I.
        apply opt_eqb_neq in Eq. contradiction. }
    assert (N0 : NoDup l0) by (unfold l0; destruct (opt_eqb (parent h x) (Some q)); [apply NoDup_filter; exact N | exact N]).
    destruct (opt_eqb p (Some q)) eqn:Ep.
    + apply opt_eqb_spec in Ep. split.
      * apply (Permutation_NoDup (Permutation_cons_append l0 x)). constructor; [|exact N0]. intros I. apply I0 in I. tauto.
      * intros y. rewrite in_app_iff, I0, D, (U y (Some q) X Px Qx). cbn [In].
        destruct (Nat.eqb y x) eqn:Yx; [apply Nat.eqb_eq in Yx | apply Nat.eqb_neq in Yx].
        -- subst y. split; [intros _; split; [exact X | congruence] | intros _; right; left; reflexivity].
        -- split; [intros [(_ & V) | [V | []]]; [split; [exact (under_lt _ _ _ V) | exact V] | congruence] | intros (_ & V); left; split; assumption].
    + apply opt_eqb_neq in Ep. split; [exact N0|]. intros y. rewrite I0, D, (U y (Some q) X Px Qx).
      destruct (Nat.eqb y x) eqn:Yx; [apply Nat.eqb_eq in Yx | apply Nat.eqb_neq in Yx].
      * subst y. split; [tauto | intros (_ & V); congruence].
      * split; [intros (_ & V); split; [exact (under_lt _ _ _ V) | exact V] | tauto].
Qed.

Lemma kept_newparent h x p : x < length h -> p <> Some x -> parent h x <> Some x -> kept h (newparent h x p).
Proof.
  intros X Px Qx. apply payload_kept. intros y _. rewrite (nth_newparent h x p y X Px Qx). destruct (nth_error h y) as [c|]; reflexivity.
Qed.
