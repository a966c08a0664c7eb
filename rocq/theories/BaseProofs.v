(* General lemmas about the shared vocabulary. *)
From Verif Require Export Base.
From Coq Require Export ZifyBool ZifyNat ZifyN.
Ltac Zify.zify_post_hook ::= Z.div_mod_to_equations.

Lemma deq_refl {A} (eqb : A -> A -> bool) (H : decides_eq eqb) x : eqb x x = true.
Proof. apply H; reflexivity. Qed.

Lemma deq_neq {A} (eqb : A -> A -> bool) (H : decides_eq eqb) x y :
  eqb x y = false <-> x <> y.
Proof.
  split.
  - intros E C; apply H in C; congruence.
  - intros N; destruct (eqb x y) eqn:E; [exfalso; apply N, H, E | reflexivity].
Qed.

Ltac eqb_cases H x y :=
  let E := fresh "E" in
  destruct (_ x y) eqn:E; [apply H in E | apply (deq_neq _ H) in E].

Section AssocLemmas.
Context {K V : Type} (eqb : K -> K -> bool) (H : decides_eq eqb).
Notation lookup := (lookup eqb).
Notation assign := (assign eqb).
Notation remove_key := (remove_key eqb).
Notation mem := (mem eqb).

Lemma lookup_assign_same k (v : V) d : lookup k (assign k v d) = Some v.
Proof.
  induction d as [|[k' v'] d IH]; cbn.
  - now rewrite (deq_refl _ H).
  - destruct (eqb k k') eqn:E; cbn; rewrite E; auto.
Qed.

Lemma lookup_assign_other k k' (v : V) d :
  k <> k' -> lookup k (assign k' v d) = lookup k d.
Proof.
  intros N; induction d as [|[k1 v1] d IH]; cbn.
  - apply (deq_neq _ H) in N; now rewrite N.
  - destruct (eqb k' k1) eqn:E; cbn.
    + apply H in E; subst k1. apply (deq_neq _ H) in N; now rewrite N.
    + destruct (eqb k k1); auto.
Qed.

Lemma lookup_None k (d : list (K * V)) : lookup k d = None <-> ~ In k (keys d).
Proof.
  induction d as [|[k' v'] d IH]; cbn; [tauto|].
  destruct (eqb k k') eqn:E.
  - apply H in E; subst; split; [discriminate|tauto].
  - apply (deq_neq _ H) in E. rewrite IH. intuition congruence.
Qed.

Lemma lookup_Some_In k (v : V) d : lookup k d = Some v -> In (k, v) d.
Proof.
  induction d as [|[k' v'] d IH]; cbn; [discriminate|].
  destruct (eqb k k') eqn:E; [apply H in E; subst|]; intros Hl.
  - injection Hl as ->; now left.
  - right; auto.
Qed.

Lemma In_lookup k (v : V) d : NoDup (keys d) -> In (k, v) d -> lookup k d = Some v.
Proof.
  induction d as [|[k' v'] d IH]; cbn; [tauto|].
  intros Hn Hi; inversion Hn; subst.
  destruct Hi as [Hi|Hi].
  - injection Hi as -> ->; now rewrite (deq_refl _ H).
  - destruct (eqb k k') eqn:E; [|auto].
    apply H in E; subst. exfalso; apply H2.
    change k' with (fst (k', v)). now apply in_map.
Qed.

Lemma mem_true k (d : list (K * V)) : mem k d = true <-> In k (keys d).
Proof.
  unfold Base.mem. destruct (lookup k d) eqn:E.
  - split; [intros _|reflexivity]. apply lookup_Some_In in E.
    change k with (fst (k, v)). now apply in_map.
  - apply lookup_None in E; split; [discriminate|tauto].
Qed.

Lemma mem_false k (d : list (K * V)) : mem k d = false <-> ~ In k (keys d).
Proof. rewrite <- mem_true. destruct (mem k d); intuition congruence. Qed.

Lemma keys_assign_in k (v : V) d : In k (keys d) -> keys (assign k v d) = keys d.
Proof.
  unfold keys; induction d as [|[k' v'] d IH]; cbn; [tauto|].
  intros Hi; destruct (eqb k k') eqn:E; cbn; [reflexivity|].
  apply (deq_neq _ H) in E. destruct Hi as [->|Hi]; [congruence|].
  now rewrite IH.
Qed.

Lemma keys_assign_notin k (v : V) d :
  ~ In k (keys d) -> assign k v d = d ++ [(k, v)].
Proof.
  unfold keys; induction d as [|[k' v'] d IH]; cbn; [reflexivity|].
  intros Hi; destruct (eqb k k') eqn:E.
  - apply H in E; subst; tauto.
  - now rewrite IH by tauto.
Qed.

Lemma NoDup_keys_assign k (v : V) d : NoDup (keys d) -> NoDup (keys (assign k v d)).
Proof.
  intros Hn. destruct (mem k d) eqn:E.
  - apply mem_true in E. now rewrite keys_assign_in.
  - apply mem_false in E. rewrite keys_assign_notin by exact E.
    unfold keys in *. rewrite map_app; cbn.
    apply Permutation_NoDup with (k :: map fst d).
    + apply Permutation_cons_append.
    + now constructor.
Qed.

Lemma keys_remove_key k (d : list (K * V)) :
  NoDup (keys d) -> forall x, In x (keys (remove_key k d)) <-> In x (keys d) /\ x <> k.
Proof.
  unfold keys; induction d as [|[k' v'] d IH]; cbn; [tauto|].
  intros Hn x; inversion Hn as [|? ? Hni Hnd]; subst.
  destruct (eqb k k') eqn:E.
  - apply H in E; subst. split; [intros Hx|intros [[->|Hx] Hne]]; try tauto.
    split; [tauto|]. intros ->; tauto.
  - apply (deq_neq _ H) in E. cbn. rewrite (IH Hnd). intuition congruence.
Qed.

Lemma NoDup_keys_remove k (d : list (K * V)) :
  NoDup (keys d) -> NoDup (keys (remove_key k d)).
Proof.
  induction d as [|[k' v'] d IH]; cbn; [auto|].
  intros Hn; inversion Hn as [|? ? Hni Hnd]; subst.
  destruct (eqb k k'); [exact Hnd|]. cbn. constructor; [|auto].
  intros Hi. apply (keys_remove_key k d Hnd) in Hi. tauto.
Qed.

Lemma lookup_remove_other k k' (d : list (K * V)) :
  k <> k' -> lookup k (remove_key k' d) = lookup k d.
Proof.
  intros N; induction d as [|[k1 v1] d IH]; cbn; [reflexivity|].
  destruct (eqb k' k1) eqn:E; cbn.
  - apply H in E; subst k1. apply (deq_neq _ H) in N; now rewrite N.
  - destruct (eqb k k1); auto.
Qed.

Lemma lookup_remove_same k (d : list (K * V)) :
  NoDup (keys d) -> lookup k (remove_key k d) = None.
Proof.
  intros Hn. apply lookup_None. intros Hi.
  apply keys_remove_key in Hi; tauto.
Qed.

Lemma lookup_app k (d1 d2 : list (K * V)) :
  lookup k (d1 ++ d2) = match lookup k d1 with Some v => Some v | None => lookup k d2 end.
Proof.
  induction d1 as [|[k' v'] d IH]; cbn; [reflexivity|].
  destruct (eqb k k'); auto.
Qed.
End AssocLemmas.

Section Positions.
Context {A : Type}.

Lemma py_pos_bound n i k : py_pos n i = Some k -> (k < n)%nat.
Proof.
  unfold py_pos. destruct ((0 <=? i) && (i <? Z.of_nat n)) eqn:E1.
  - intros [= <-]; lia.
  - destruct ((- Z.of_nat n <=? i) && (i <? 0)) eqn:E2; [|discriminate].
    intros [= <-]; lia.
Qed.

Lemma py_pos_nonneg n i : 0 <= i < Z.of_nat n -> py_pos n i = Some (Z.to_nat i).
Proof.
  intros Hi. unfold py_pos.
  destruct ((0 <=? i) && (i <? Z.of_nat n)) eqn:E1; [reflexivity|lia].
Qed.

Lemma py_pos_neg n i : - Z.of_nat n <= i < 0 -> py_pos n i = Some (Z.to_nat (i + Z.of_nat n)).
Proof.
  intros Hi. unfold py_pos.
  destruct ((0 <=? i) && (i <? Z.of_nat n)) eqn:E1; [lia|].
  destruct ((- Z.of_nat n <=? i) && (i <? 0)) eqn:E2; [reflexivity|lia].
Qed.

Lemma py_pos_None n i : py_pos n i = None <-> i < - Z.of_nat n \/ Z.of_nat n <= i.
Proof.
  unfold py_pos.
  destruct ((0 <=? i) && (i <? Z.of_nat n)) eqn:E1;
  [|destruct ((- Z.of_nat n <=? i) && (i <? 0)) eqn:E2];
  split; intros; try discriminate; try reflexivity; lia.
Qed.

Lemma set_nth_length (l : list A) k x : length (set_nth l k x) = length l.
Proof. revert k; induction l as [|a l IH]; intros [|k]; cbn; auto. Qed.

Lemma nth_error_set_nth (l : list A) k x j :
  nth_error (set_nth l k x) j =
  if Nat.eqb j k then (if Nat.ltb k (length l) then Some x else None) else nth_error l j.
Proof.
  revert k j; induction l as [|a l IH]; intros [|k] [|j]; cbn; auto.
  - destruct (Nat.eqb j k); auto.
  - rewrite IH. reflexivity.
Qed.
End Positions.

Lemma list_eq_nth_error {A} (l1 l2 : list A) :
  (forall i, nth_error l1 i = nth_error l2 i) -> l1 = l2.
Proof.
  revert l2; induction l1 as [|a l1 IH]; intros [|b l2] Hn.
  - reflexivity.
  - specialize (Hn O); discriminate.
  - specialize (Hn O); discriminate.
  - pose proof (Hn O) as H0; injection H0 as ->. f_equal. apply IH.
    intros i; exact (Hn (S i)).
Qed.

Lemma nth_error_firstn' {A} (l : list A) n i :
  nth_error (firstn n l) i = if Nat.ltb i n then nth_error l i else None.
Proof.
  revert n i; induction l as [|a l IH]; intros [|n] [|i]; cbn; auto.
  - match goal with |- context[if ?b then _ else _] => destruct b end; auto.
  - rewrite IH. reflexivity.
Qed.

Lemma nth_error_skipn' {A} (l : list A) n i :
  nth_error (skipn n l) i = nth_error l (n + i).
Proof.
  revert n i; induction l as [|a l IH]; intros [|n] i; cbn; auto.
  now destruct i.
Qed.

Lemma nth_error_seq' s n i :
  nth_error (seq s n) i = if Nat.ltb i n then Some (s + i)%nat else None.
Proof.
  revert s i; induction n as [|n IH]; intros s [|i]; cbn [seq nth_error].
  - reflexivity.
  - reflexivity.
  - rewrite Nat.add_0_r. reflexivity.
  - rewrite IH. change (S i <? S n)%nat with (i <? n)%nat.
    destruct (i <? n)%nat; [|reflexivity].
    now rewrite <- Nat.add_succ_comm.
Qed.

Lemma mapM_Ok_Forall2 {A B} (f : A -> result B) l bs :
  mapM f l = Ok bs <-> Forall2 (fun a b => f a = Ok b) l bs.
Proof.
  revert bs; induction l as [|a l IH]; cbn; intros bs.
  - split; [intros [= <-]; constructor | intros Hf; inversion Hf; reflexivity].
  - destruct (f a) as [b|e] eqn:E; cbn.
    + destruct (mapM f l) as [bs'|e']; cbn.
      * split.
        -- intros [= <-]; constructor; [exact E|]. now apply IH.
        -- intros Hf; inversion Hf as [|? b' ? bs2 H1 H2]; subst.
           rewrite E in H1; injection H1 as <-. apply IH in H2; congruence.
      * split; [discriminate|].
        intros Hf; inversion Hf as [|? b' ? bs2 H1 H2]; subst.
        apply IH in H2; discriminate.
    + split; [discriminate|].
      intros Hf; inversion Hf as [|? b' ? bs2 H1 H2]; congruence.
Qed.

Lemma mapM_ext {A B} (f g : A -> result B) l :
  (forall a, In a l -> f a = g a) -> mapM f l = mapM g l.
Proof.
  induction l as [|a l IH]; cbn; intros He; [reflexivity|].
  rewrite (He a) by auto. rewrite IH by (intros; apply He; auto). reflexivity.
Qed.

Lemma mapM_Ok_map {A B} (f : A -> B) l : mapM (fun a => Ok (f a)) l = Ok (map f l).
Proof. induction l as [|a l IH]; cbn; [reflexivity|]. now rewrite IH. Qed.

Lemma Forall2_impl {A B} (P Q : A -> B -> Prop) l1 l2 :
  (forall a b, P a b -> Q a b) -> Forall2 P l1 l2 -> Forall2 Q l1 l2.
Proof. intros H; induction 1; constructor; auto. Qed.

Lemma skipn_skipn' {A} (a b : nat) (l : list A) : skipn a (skipn b l) = skipn (b + a) l.
Proof.
  revert b; induction l as [|x l IH]; intros b; [now rewrite !skipn_nil|].
  destruct b as [|b]; [reflexivity|]. cbn. apply IH.
Qed.

Lemma NoDup_app_inv {A} (l1 l2 : list A) :
  NoDup (l1 ++ l2) <-> NoDup l1 /\ NoDup l2 /\ (forall x, In x l1 -> ~ In x l2).
Proof.
  induction l1 as [|a l1 IH]; cbn.
  - split; [intros H; repeat split; auto; constructor|tauto].
  - rewrite !NoDup_cons_iff, IH, in_app_iff. split.
    + intros (H1 & H2 & H3 & H4). repeat split; try tauto.
      intros x [<-|Hx]; [tauto|]. apply H4; exact Hx.
    + intros ((H1 & H2) & H3 & H4). repeat split; auto.
      intros [H|H]; [tauto|]. exact (H4 a (or_introl eq_refl) H).
Qed.

Lemma Forall2_len {A B} (R : A -> B -> Prop) l l' : Forall2 R l l' -> length l = length l'.
Proof. induction 1; cbn; congruence. Qed.
