From Verif Require Import Base BaseProofs QcTac ListToolsModel ListToolsSpec.

(* ---------- flatten ---------- *)
Section TreeInd.
Context {A : Type} (P : tree A -> Prop).
Hypothesis HL : forall a, P (Leaf a).
Hypothesis HN : forall l, Forall P l -> P (Node l).
Fixpoint tree_ind' (t : tree A) : P t :=
  match t with
  | Leaf a => HL a
  | Node l => HN l ((fix go (l : list (tree A)) : Forall P l :=
      match l with
      | [] => Forall_nil P
      | x :: l' => Forall_cons x (tree_ind' x) (go l')
      end) l)
  end.
End TreeInd.

(* leaves with their positions *)
Fixpoint annot {A} (t : tree A) : list (list nat * A) :=
  match t with
  | Leaf a => [([], a)]
  | Node l =>
      (fix go (k : nat) (l : list (tree A)) : list (list nat * A) :=
         match l with
         | [] => []
         | t :: l' => map (fun pa => (k :: fst pa, snd pa)) (annot t) ++ go (S k) l'
         end) O l
  end.

Fixpoint annot_from {A} (k : nat) (l : list (tree A)) : list (list nat * A) :=
  match l with
  | [] => []
  | t :: l' => map (fun pa => (k :: fst pa, snd pa)) (annot t) ++ annot_from (S k) l'
  end.

Lemma annot_Node {A} (l : list (tree A)) : annot (Node l) = annot_from 0 l.
Proof.
  cbn. generalize O. induction l as [|t l IH]; intros k; cbn; [reflexivity|].
  now rewrite IH.
Qed.

Lemma annot_snd {A} (t : tree A) : map snd (annot t) = flatten t.
Proof.
  induction t as [a|l IH] using tree_ind'; [reflexivity|].
  rewrite annot_Node. cbn. generalize O.
  induction IH as [|t l Ht Hl IH2]; intros k; cbn; [reflexivity|].
  rewrite map_app, map_map. cbn. rewrite IH2. f_equal. exact Ht.
Qed.

Lemma annot_from_In {A} (l : list (tree A)) k p (a : A) :
  In (p, a) (annot_from k l) <->
  exists i t p', nth_error l i = Some t /\ p = (k + i)%nat :: p' /\ In (p', a) (annot t).
Proof.
  revert k; induction l as [|t l IH]; intros k; cbn.
  - split; [tauto|]. intros (i & t & p' & H & _); destruct i; discriminate.
  - rewrite in_app_iff, in_map_iff, IH. split.
    + intros [([p1 a1] & E & Hi)|(i & t' & p' & Hn & -> & Hi)].
      * injection E as <- <-. exists O, t, p1. rewrite Nat.add_0_r. auto.
      * exists (S i), t', p'. rewrite <- Nat.add_succ_comm. auto.
    + intros ([|i] & t' & p' & Hn & -> & Hi).
      * left. injection Hn as ->. exists (p', a). rewrite Nat.add_0_r. auto.
      * right. exists i, t', p'. rewrite Nat.add_succ_comm. auto.
Qed.

Lemma annot_In {A} (t : tree A) p a : In (p, a) (annot t) <-> leaf_at t p = Some a.
Proof.
  revert p; induction t as [x|l IH] using tree_ind'; intros p.
  - cbn. destruct p; split.
    + intros [[= ->]|[]]; reflexivity.
    + intros [= ->]; auto.
    + intros [[=]|[]].
    + discriminate.
  - rewrite annot_Node, annot_from_In. cbn. destruct p as [|i p].
    + split; [|discriminate]. intros (i & t & p' & _ & [=] & _).
    + rewrite Forall_forall in IH. split.
      * intros (j & t & p' & Hn & E & Hi). injection E as -> ->. cbn in Hn |- *.
        rewrite Hn. apply (IH t); [eapply nth_error_In; eauto|exact Hi].
      * cbn [leaf_at]. destruct (nth_error l i) as [t|] eqn:Hn; [|discriminate]. intros Hl.
        exists i, t, p. split; [exact Hn|]. split; [reflexivity|].
        apply (IH t); [eapply nth_error_In; eauto|exact Hl].
Qed.

Lemma StronglySorted_app {A} (R : A -> A -> Prop) l1 l2 :
  StronglySorted R l1 -> StronglySorted R l2 ->
  (forall x y, In x l1 -> In y l2 -> R x y) -> StronglySorted R (l1 ++ l2).
Proof.
  induction l1 as [|a l1 IH]; cbn; intros H1 H2 H12; [exact H2|].
  inversion H1 as [|? ? Hs Hf]; subst. constructor.
  - apply IH; auto.
  - apply Forall_app; split; [exact Hf|]. apply Forall_forall. auto.
Qed.

Lemma StronglySorted_map {A B} (f : A -> B) (R : A -> A -> Prop) (S : B -> B -> Prop) l :
  (forall x y, R x y -> S (f x) (f y)) -> StronglySorted R l -> StronglySorted S (map f l).
Proof.
  intros Hm; induction 1 as [|a l Hs IH Hf]; cbn; constructor; auto.
  apply Forall_map. eapply Forall_impl; [|exact Hf]. auto.
Qed.

Lemma annot_sorted {A} (t : tree A) :
  StronglySorted (fun x y => path_lt (fst x) (fst y)) (annot t).
Proof.
  induction t as [x|l IH] using tree_ind'.
  - repeat constructor.
  - rewrite annot_Node. generalize O.
    induction IH as [|t l Ht Hl IH2]; intros k; cbn [annot_from]; [constructor|].
    apply StronglySorted_app.
    + eapply StronglySorted_map; [|exact Ht]. intros [p a] [q b] Hpq; cbn in *. auto.
    + apply IH2.
    + intros [p a] [q b] H1 H2. apply in_map_iff in H1. destruct H1 as ([p1 a1] & E & _).
      injection E as <- <-. apply annot_from_In in H2.
      destruct H2 as (i & t' & p' & _ & -> & _). cbn. left; lia.
Qed.

Lemma flatten_in_order {A} (t : tree A) :
  exists ps : list (list nat * A),
    StronglySorted (fun x y => path_lt (fst x) (fst y)) ps /\
    (forall p a, In (p, a) ps <-> leaf_at t p = Some a) /\
    flatten t = map snd ps.
Proof.
  exists (annot t). split; [apply annot_sorted|]. split; [apply annot_In|].
  symmetry; apply annot_snd.
Qed.

Lemma flatten_flat {A} (l : list A) : flatten (Node (map Leaf l)) = l.
Proof. cbn. induction l as [|a l IH]; cbn; [reflexivity|]. now rewrite IH. Qed.

(* ---------- indexing ---------- *)
Lemma where_from_spec {A} (l : list A) f k i :
  In i (where_from k l f) <->
  exists x, (k <= i)%nat /\ nth_error l (i - k) = Some x /\ f x = true.
Proof.
  revert k; induction l as [|x l IH]; intros k; cbn [where_from].
  - split; [intros []|]. intros (x & _ & H & _). destruct (i - k)%nat; discriminate.
  - assert (HS : forall j, (k <= j)%nat -> (S j - k = S (j - k))%nat) by (intros; lia).
    destruct (f x) eqn:Ef; cbn [In]; rewrite IH; split.
    + intros [->|(y & Hle & Hn & Hf)].
      * exists x. rewrite Nat.sub_diag. auto.
      * exists y. split; [lia|]. replace (i - k)%nat with (S (i - S k)) by lia. auto.
    + intros (y & Hle & Hn & Hf). destruct (Nat.eq_dec i k) as [->|Hne]; [auto|].
      right. exists y. split; [lia|]. replace (i - k)%nat with (S (i - S k)) in Hn by lia. auto.
    + intros (y & Hle & Hn & Hf). exists y. split; [lia|].
      replace (i - k)%nat with (S (i - S k)) by lia. auto.
    + intros (y & Hle & Hn & Hf). destruct (Nat.eq_dec i k) as [->|Hne].
      * rewrite Nat.sub_diag in Hn. injection Hn as ->. congruence.
      * exists y. split; [lia|]. replace (i - k)%nat with (S (i - S k)) in Hn by lia. auto.
Qed.

Lemma where_from_sorted {A} (l : list A) f k :
  StronglySorted lt (where_from k l f) /\ Forall (le k) (where_from k l f).
Proof.
  revert k; induction l as [|x l IH]; intros k; cbn [where_from]; [repeat constructor|].
  destruct (IH (S k)) as [Hs Hf].
  assert (Hf' : Forall (le k) (where_from (S k) l f)).
  { eapply Forall_impl; [|exact Hf]. cbn. lia. }
  destruct (f x); [|auto]. split; constructor; auto.
Qed.

Lemma compress_positions {A} (l : list A) (b : list bool) k :
  length b = length l ->
  Forall2 (fun i x => (k <= i)%nat /\ nth_error l (i - k) = Some x)
    (where_from k b (fun v => v)) (compress l b).
Proof.
  revert k b; induction l as [|x l IH]; intros k [|v b] Hlen; cbn in Hlen; try discriminate.
  - constructor.
  - injection Hlen as Hlen. specialize (IH (S k) b Hlen).
    assert (IH' : Forall2 (fun i y => (k <= i)%nat /\ nth_error (x :: l) (i - k) = Some y)
                    (where_from (S k) b (fun v => v)) (compress l b)).
    { eapply Forall2_impl; [|exact IH]. cbn beta. intros i y [Hle Hn]. split; [lia|].
      replace (i - k)%nat with (S (i - S k)) by lia. exact Hn. }
    destruct v; cbn; [|exact IH'].
    constructor; [|exact IH']. rewrite Nat.sub_diag. auto.
Qed.

Lemma listadvanced_bool_positions {A} (l : list A) (b : list bool) (bnot : bool) :
  length b = length l ->
  exists ps, StronglySorted lt ps /\
    (forall i, In i ps <-> nth_error b i = Some (negb bnot)) /\
    Forall2 (fun i x => nth_error l i = Some x) ps (listadvanced_bool l b bnot).
Proof.
  intros Hlen. unfold listadvanced_bool.
  set (b' := if bnot then map negb b else b).
  assert (Hlen' : length b' = length l) by (unfold b'; destruct bnot; rewrite ?map_length; auto).
  exists (where_from 0 b' (fun v => v)). split; [apply where_from_sorted|]. split.
  - intros i. rewrite where_from_spec. rewrite Nat.sub_0_r. unfold b'.
    destruct bnot; cbn.
    + rewrite nth_error_map. destruct (nth_error b i) as [[|]|]; cbn; split;
        try (intros (x & _ & E & F)); try discriminate; try congruence.
      intros _. exists true. repeat split; auto. lia.
    + split; [intros (x & _ & E & F); congruence|]. intros E. exists true. repeat split; auto; lia.
  - pose proof (compress_positions l b' 0 Hlen') as Hf.
    eapply Forall2_impl; [|exact Hf]. cbn beta. intros i x [_ Hn].
    rewrite Nat.sub_0_r in Hn. exact Hn.
Qed.

Lemma py_get_ok {A} (l : list A) i x :
  py_get l i = Ok x <->
  (0 <= i /\ nth_error l (Z.to_nat i) = Some x) \/
  (i < 0 /\ - Z.of_nat (length l) <= i /\ nth_error l (Z.to_nat (i + Z.of_nat (length l))) = Some x).
Proof.
  unfold py_get. destruct (py_pos (length l) i) as [k|] eqn:E.
  - pose proof (py_pos_bound _ _ _ E) as Hk. unfold py_pos in E.
    destruct ((0 <=? i) && (i <? Z.of_nat (length l))) eqn:E1.
    + injection E as <-. destruct (nth_error l (Z.to_nat i)) eqn:En.
      * split; [intros [= ->]; left; split; [lia|auto]|]. intros [[_ H]|[H _]]; [congruence|lia].
      * apply nth_error_None in En. lia.
    + destruct ((- Z.of_nat (length l) <=? i) && (i <? 0)) eqn:E2; [|discriminate].
      injection E as <-. destruct (nth_error l (Z.to_nat (i + Z.of_nat (length l)))) eqn:En.
      * split; [intros [= ->]; right; repeat split; auto; lia|]. intros [[H _]|[_ [_ H]]]; [lia|congruence].
      * apply nth_error_None in En. lia.
  - apply py_pos_None in E. split; [discriminate|]. intros [[H1 H2]|[H1 [H2 H3]]]; [|lia].
    assert (nth_error l (Z.to_nat i) <> None) by congruence.
    apply nth_error_Some in H. lia.
Qed.

Lemma py_get_err {A} (l : list A) i :
  (exists e, py_get l i = Err e) <-> i < - Z.of_nat (length l) \/ Z.of_nat (length l) <= i.
Proof.
  split.
  - intros [e He]. destruct (py_pos (length l) i) as [k|] eqn:E.
    + unfold py_get in He. rewrite E in He. pose proof (py_pos_bound _ _ _ E) as Hk.
      destruct (nth_error l k) eqn:En; [discriminate|]. apply nth_error_None in En. lia.
    + now apply py_pos_None.
  - intros H. apply py_pos_None in H. unfold py_get. rewrite H. eauto.
Qed.

Lemma listadvanced_int_spec {A} (l : list A) ind out :
  listadvanced_int l ind = Ok out <->
  Forall2 (fun i x => (0 <= i /\ nth_error l (Z.to_nat i) = Some x) \/
    (i < 0 /\ - Z.of_nat (length l) <= i /\
     nth_error l (Z.to_nat (i + Z.of_nat (length l))) = Some x)) ind out.
Proof.
  unfold listadvanced_int. rewrite mapM_Ok_Forall2. split; intros Hf.
  - eapply Forall2_impl; [|exact Hf]. intros i x. apply py_get_ok.
  - eapply Forall2_impl; [|exact Hf]. intros i x. apply py_get_ok.
Qed.

Lemma mapM_err_iff {A B} (f : A -> result B) l :
  (exists e, mapM f l = Err e) <-> exists a, In a l /\ exists e, f a = Err e.
Proof.
  induction l as [|a l IH]; cbn.
  - split; [intros [e [=]]|intros (a & [] & _)].
  - destruct (f a) as [b|e] eqn:E; cbn.
    + destruct (mapM f l) as [bs|e'] eqn:E'; cbn.
      * split; [intros [e [=]]|]. intros (x & [<-|Hi] & e & He); [congruence|].
        destruct IH as [_ IH]. destruct IH as [e2 [=]]. eauto.
      * split; [|eauto]. intros _. destruct IH as [IH _]. destruct IH as (x & Hi & He); eauto.
    + split; [|eauto]. intros _. exists a. eauto.
Qed.

Lemma listadvanced_int_err {A} (l : list A) ind :
  (exists e, listadvanced_int l ind = Err e) <->
  exists i, In i ind /\ (i < - Z.of_nat (length l) \/ Z.of_nat (length l) <= i).
Proof.
  unfold listadvanced_int. rewrite mapM_err_iff. split; intros (i & Hi & He); exists i; split; auto;
  now apply py_get_err.
Qed.

(* ---------- sorting ---------- *)
Section SortProofs.
Context {A : Type} (le : A -> A -> bool).
Hypothesis le_total : forall x y, le x y = true \/ le y x = true.
Hypothesis le_trans : forall x y z, le x y = true -> le y z = true -> le x z = true.

Lemma insert_perm x l : Permutation (insert le x l) (x :: l).
Proof.
  induction l as [|y l IH]; cbn; [reflexivity|].
  destruct (le x y); [reflexivity|].
  rewrite IH. apply perm_swap.
Qed.

Lemma sorted_perm l : Permutation (sorted le l) l.
Proof.
  induction l as [|x l IH]; cbn; [reflexivity|].
  rewrite insert_perm. now constructor.
Qed.

Notation R := (fun x y => le x y = true).

Lemma insert_sorted x l : StronglySorted R l -> StronglySorted R (insert le x l).
Proof.
  induction 1 as [|y l Hs IH Hf]; cbn; [repeat constructor|].
  destruct (le x y) eqn:E.
  - constructor; [now constructor|]. constructor; [exact E|].
    eapply Forall_impl; [|exact Hf]. cbn. intros z Hz. eapply le_trans; eauto.
  - constructor; [exact IH|].
    rewrite insert_perm. constructor; [|exact Hf].
    destruct (le_total x y); congruence.
Qed.

Lemma sorted_sorted l : StronglySorted R (sorted le l).
Proof. induction l as [|x l IH]; cbn; [constructor|]. now apply insert_sorted. Qed.

(* stability: elements equivalent to k keep their order *)
Definition equiv x y := le x y && le y x.

Lemma filter_insert k x l :
  StronglySorted R l ->
  filter (equiv k) (insert le x l) = filter (equiv k) (x :: l).
Proof.
  induction 1 as [|y l Hs IH Hf]; cbn [insert]; [reflexivity|].
  destruct (le x y) eqn:E; [reflexivity|].
  cbn [filter]. rewrite IH. cbn [filter].
  destruct (equiv k x) eqn:Ex; [|reflexivity].
  destruct (equiv k y) eqn:Ey; [|reflexivity].
  exfalso. unfold equiv in *. apply andb_prop in Ex, Ey.
  destruct Ex as [Ex1 Ex2], Ey as [Ey1 Ey2].
  assert (le x y = true) by (eapply le_trans; eauto). congruence.
Qed.

Lemma filter_sorted k l : filter (equiv k) (sorted le l) = filter (equiv k) l.
Proof.
  induction l as [|x l IH]; cbn [sorted]; [reflexivity|].
  rewrite filter_insert by apply sorted_sorted. cbn. now rewrite IH.
Qed.
End SortProofs.

Lemma combine_map_fst_snd {A B} (s : list (A * B)) : combine (map fst s) (map snd s) = s.
Proof. induction s as [|[a b] s IH]; cbn; [reflexivity|]. now rewrite IH. Qed.

Lemma sort2lists_spec {A B} (le : A -> A -> bool) (l1 : list A) (l2 : list B) o1 o2 :
  (forall x y, le x y = true \/ le y x = true) ->
  (forall x y z, le x y = true -> le y z = true -> le x z = true) ->
  sort2lists le l1 l2 = Some (o1, o2) ->
  length o1 = length o2 /\
  Permutation (combine o1 o2) (combine l1 l2) /\
  StronglySorted (fun x y => le x y = true) o1 /\
  (forall k, filter (fun p => le k (fst p) && le (fst p) k) (combine o1 o2) =
             filter (fun p => le k (fst p) && le (fst p) k) (combine l1 l2)).
Proof.
  intros Ht Htr. unfold sort2lists.
  set (le2 := fun p q : A * B => le (fst p) (fst q)).
  assert (Ht2 : forall x y, le2 x y = true \/ le2 y x = true) by (intros; apply Ht).
  assert (Htr2 : forall x y z, le2 x y = true -> le2 y z = true -> le2 x z = true)
    by (intros x y z; apply Htr).
  destruct (sorted le2 (combine l1 l2)) as [|p s] eqn:E; [discriminate|].
  rewrite <- E. intros [= <- <-]. rewrite combine_map_fst_snd.
  split; [now rewrite !map_length|]. split; [apply sorted_perm|]. split.
  - eapply StronglySorted_map; [|apply sorted_sorted; eassumption]. auto.
  - intros k.
    destruct (existsb (fun p => le k (fst p) && le (fst p) k) (combine l1 l2)) eqn:Ex.
    + apply existsb_exists in Ex. destruct Ex as ([a b] & Hi & Hk). cbn in Hk.
      apply andb_prop in Hk. destruct Hk as [Hk1 Hk2].
      assert (He : forall q : A * B, (le k (fst q) && le (fst q) k) = equiv le2 (a, b) q).
      { intros [c d]. unfold equiv, le2. cbn.
        destruct (le k c) eqn:E1, (le c k) eqn:E2, (le a c) eqn:E3, (le c a) eqn:E4; cbn; auto;
        exfalso;
        repeat match goal with
        | H1 : le ?x ?y = true, H2 : le ?y ?z = true, H3 : le ?x ?z = false |- _ =>
            rewrite (Htr x y z H1 H2) in H3; discriminate
        end. }
      rewrite (filter_ext _ _ He), (filter_ext _ _ He). apply filter_sorted; assumption.
    + assert (Hn : forall q, In q (combine l1 l2) -> (le k (fst q) && le (fst q) k) = false).
      { intros q Hq. destruct (le k (fst q) && le (fst q) k) eqn:Eq; [|reflexivity].
        rewrite <- Ex. symmetry. apply existsb_exists. eauto. }
      assert (Hf : forall l : list (A * B), (forall q, In q l -> (le k (fst q) && le (fst q) k) = false) ->
                 filter (fun p => le k (fst p) && le (fst p) k) l = []).
      { induction l as [|q l IH]; cbn; [reflexivity|]. intros Hl.
        rewrite (Hl q) by auto. apply IH. auto. }
      rewrite (Hf _ Hn). apply Hf. intros q Hq. apply Hn.
      eapply Permutation_in; [apply sorted_perm|exact Hq].
Qed.

Lemma sort2lists_None {A B} (le : A -> A -> bool) (l1 : list A) (l2 : list B) :
  sort2lists le l1 l2 = None <-> combine l1 l2 = [].
Proof.
  unfold sort2lists. pose proof (sorted_perm (fun p q => le (fst p) (fst q)) (combine l1 l2)) as Hp.
  destruct (sorted _ (combine l1 l2)) as [|p s].
  - apply Permutation_nil in Hp. tauto.
  - split; [discriminate|]. intros E. rewrite E in Hp. symmetry in Hp.
    apply Permutation_nil in Hp. discriminate.
Qed.

Lemma existsb_eqb {A} (eqb : A -> A -> bool) (Heqb : decides_eq eqb) x l : existsb (eqb x) l = true <-> In x l.
Proof.
  rewrite existsb_exists. split.
  - intros (y & Hi & E). apply Heqb in E; subst; exact Hi.
  - intros Hi. exists x. split; [exact Hi|]. apply (deq_refl _ Heqb).
Qed.

Lemma existsb_eqb_false {A} (eqb : A -> A -> bool) (Heqb : decides_eq eqb) x l : existsb (eqb x) l = false <-> ~ In x l.
Proof. rewrite <- (existsb_eqb _ Heqb). destruct (existsb (eqb x) l); intuition congruence. Qed.

(* ---------- unique ---------- *)
Section Kept.
Context {A : Type} (eqb : A -> A -> bool) (Heqb : decides_eq eqb).
Lemma first_index_Some_In x l i : first_index eqb x l = Some i -> In x l.
Proof.
  revert i; induction l as [|y l IH]; cbn; intros i; [discriminate|].
  destruct (eqb x y) eqn:E; [apply Heqb in E; subst; auto|].
  destruct (first_index eqb x l); [|discriminate]. eauto.
Qed.

Lemma first_index_In x l : In x l -> exists i, first_index eqb x l = Some i.
Proof.
  induction l as [|y l IH]; cbn; [tauto|]. intros [->|Hi].
  - rewrite (deq_refl _ Heqb). eauto.
  - destruct (eqb x y); [eauto|]. destruct (IH Hi) as [i ->]. cbn; eauto.
Qed.

Lemma first_index_app x l1 l2 :
  first_index eqb x (l1 ++ l2) =
  match first_index eqb x l1 with
  | Some i => Some i
  | None => option_map (Nat.add (length l1)) (first_index eqb x l2)
  end.
Proof.
  induction l1 as [|y l1 IH]; cbn.
  - destruct (first_index eqb x l2); reflexivity.
  - destruct (eqb x y); [reflexivity|]. rewrite IH.
    destruct (first_index eqb x l1); cbn; [reflexivity|].
    destruct (first_index eqb x l2); reflexivity.
Qed.

Lemma first_index_bound x l i : first_index eqb x l = Some i -> (i < length l)%nat.
Proof.
  revert i; induction l as [|y l IH]; cbn; intros i; [discriminate|].
  destruct (eqb x y); [intros [= <-]; lia|].
  destruct (first_index eqb x l) as [j|]; cbn; [|discriminate].
  intros [= <-]. specialize (IH j eq_refl). lia.
Qed.

(* A list of keys kept by "keep x iff not seen", scanned over l after pre. *)
Inductive kept : list A -> list A -> list A -> Prop :=
| kept_nil pre : kept pre [] []
| kept_skip pre x l ks : In x pre -> kept (pre ++ [x]) l ks -> kept pre (x :: l) ks
| kept_keep pre x l ks : ~ In x pre -> kept (pre ++ [x]) l ks -> kept pre (x :: l) (x :: ks).

Lemma kept_spec pre l ks :
  kept pre l ks ->
  NoDup ks /\ (forall x, In x ks <-> In x l /\ ~ In x pre) /\
  StronglySorted (earlier eqb (pre ++ l)) ks.
Proof.
  induction 1 as [pre|pre x l ks Hin Hk (IH1 & IH2 & IH3)|pre x l ks Hin Hk (IH1 & IH2 & IH3)].
  - repeat split; try constructor; cbn in *; tauto.
  - rewrite <- app_assoc in IH3; cbn in IH3. split; [exact IH1|]. split; [|exact IH3].
    intros y. rewrite IH2, in_app_iff. cbn. split; [intuition|].
    intros [[->|Hy] Hn]; [tauto|]. split; [auto|]. intros [|[->|[]]]; tauto.
  - rewrite <- app_assoc in IH3; cbn in IH3. split; [|split].
    + constructor; [|exact IH1]. rewrite IH2, in_app_iff. cbn. tauto.
    + intros y. cbn. rewrite IH2, in_app_iff. cbn. split.
      * intros [<-|[Hy Hn]]; [auto|]. split; [auto|]. tauto.
      * intros [[->|Hy] Hn]; [auto|]. destruct (eqb x y) eqn:E.
        -- apply Heqb in E; auto.
        -- apply (deq_neq _ Heqb) in E. right. split; [auto|]. intros [|[|[]]]; tauto.
    + constructor; [exact IH3|]. apply Forall_forall. intros y Hy.
      apply IH2 in Hy. destruct Hy as [Hyl Hyn].
      rewrite in_app_iff in Hyn; cbn in Hyn.
      unfold earlier. rewrite !first_index_app.
      assert (Ex : first_index eqb x pre = None).
      { destruct (first_index eqb x pre) eqn:E; [|reflexivity].
        apply first_index_Some_In in E; tauto. }
      assert (Ey : first_index eqb y pre = None).
      { destruct (first_index eqb y pre) eqn:E; [|reflexivity].
        apply first_index_Some_In in E; tauto. }
      rewrite Ex, Ey. cbn. rewrite (deq_refl _ Heqb).
      assert (Hxy : eqb y x = false) by (apply (deq_neq _ Heqb); intuition congruence).
      rewrite Hxy. destruct (first_index_In y l Hyl) as [j ->]. cbn.
      exists (length pre + 0)%nat, (length pre + S j)%nat. repeat split. lia.
Qed.

End Kept.

Section FirstProofs.
Context {A B : Type} (eqb : A -> A -> bool) (Heqb : decides_eq eqb).
Notation lookup := (lookup eqb).

Lemma unseen_kept l (pre seen : list A) :
  (forall z, In z seen <-> In z pre) ->
  kept pre (map fst l) (map fst (unseen (B := B) eqb seen l)).
Proof.
  revert pre seen; induction l as [|[k v] l IH]; intros pre seen Hs; cbn [unseen map fst].
  - constructor.
  - destruct (existsb (eqb k) seen) eqn:E.
    + apply (existsb_eqb _ Heqb) in E. apply kept_skip; [now apply Hs|]. apply IH.
      intros z. rewrite in_app_iff, <- Hs. cbn. intuition congruence.
    + apply (existsb_eqb_false _ Heqb) in E. cbn [map fst]. apply kept_keep; [now rewrite <- Hs|].
      apply IH. intros z. rewrite in_app_iff, <- Hs. cbn. tauto.
Qed.

Lemma unseen_first l (seen : list A) x y :
  In (x, y) (unseen (B := B) eqb seen l) -> lookup x l = Some y /\ ~ In x seen.
Proof.
  revert seen; induction l as [|[k v] l IH]; intros seen; cbn [unseen Base.lookup]; [intros []|].
  destruct (existsb (eqb k) seen) eqn:E.
  - intros Hi. destruct (IH _ Hi) as [Hl Hn]. apply (existsb_eqb _ Heqb) in E.
    destruct (eqb x k) eqn:Ex; [apply Heqb in Ex; subst; tauto|]. auto.
  - apply (existsb_eqb_false _ Heqb) in E. cbn [In]. intros [[= -> ->]|Hi].
    + rewrite (deq_refl _ Heqb). auto.
    + destruct (IH _ Hi) as [Hl Hn]. cbn in Hn.
      destruct (eqb x k) eqn:Ex; [apply Heqb in Ex; subst; tauto|]. auto.
Qed.

Lemma unique2lists_first_spec l1 (l2 : list B) o1 o2 :
  unique2lists_first eqb l1 l2 = Ok (o1, o2) ->
  distinct_in_order eqb o1 (map fst (combine l1 l2)) /\
  Forall2 (fun x y => lookup x (combine l1 l2) = Some y) o1 o2.
Proof.
  unfold unique2lists_first.
  destruct (unseen eqb [] (combine l1 l2)) as [|p l] eqn:E; [discriminate|].
  rewrite <- E. intros [= <- <-]. split.
  - assert (Hk : kept [] (map fst (combine l1 l2)) (map fst (unseen eqb [] (combine l1 l2)))).
    { apply unseen_kept. tauto. }
    apply (kept_spec _ Heqb) in Hk. destruct Hk as (H1 & H2 & H3).
    split; [exact H1|]. split; [|exact H3]. intros x. rewrite H2. cbn. tauto.
  - assert (Hall : forall q, In q (unseen eqb [] (combine l1 l2)) ->
                     lookup (fst q) (combine l1 l2) = Some (snd q)).
    { intros [x y] Hq. apply unseen_first in Hq. apply Hq. }
    revert Hall. generalize (unseen eqb [] (combine l1 l2)). intros s Hall.
    induction s as [|q s IH]; cbn; constructor; [apply Hall; cbn; auto|].
    apply IH. intros; apply Hall; cbn; auto.
Qed.

Lemma unique2lists_first_err l1 (l2 : list B) :
  (exists e, unique2lists_first eqb l1 l2 = Err e) <-> combine l1 l2 = [].
Proof.
  unfold unique2lists_first. destruct (combine l1 l2) as [|[x y] l] eqn:E; cbn.
  - split; eauto.
  - split; [intros [e [=]]|discriminate].
Qed.

End FirstProofs.

Section UniqueProofs.
Context {A B : Type} (eqb : A -> A -> bool) (Heqb : decides_eq eqb).
Context (plus : B -> B -> B) (zero : B).
Notation lookup := (lookup eqb).
Notation counter_add := (counter_add eqb plus zero).
Notation u2l_loop := (u2l_loop eqb plus zero).

Definition count_of (x : A) (c : list (A * B)) : B :=
  match lookup x c with Some v => v | None => zero end.

Lemma count_of_add x y z c :
  count_of z (counter_add x y c) = if eqb z x then plus (count_of z c) y else count_of z c.
Proof.
  unfold count_of, ListToolsModel.counter_add. destruct (eqb z x) eqn:E.
  - apply Heqb in E; subst. rewrite lookup_assign_same by exact Heqb. reflexivity.
  - apply (deq_neq _ Heqb) in E. rewrite lookup_assign_other by assumption. reflexivity.
Qed.

Lemma keys_counter_add x y c z : In z (keys (counter_add x y c)) <-> z = x \/ In z (keys c).
Proof.
  unfold ListToolsModel.counter_add. destruct (mem eqb x c) eqn:E.
  - apply mem_true in E; [|exact Heqb]. rewrite keys_assign_in by assumption.
    split; [tauto|]. intros [->|H]; assumption.
  - apply mem_false in E; [|exact Heqb]. rewrite keys_assign_notin by assumption.
    unfold keys. rewrite map_app, in_app_iff. cbn. intuition congruence.
Qed.

Lemma u2l_loop_count l c x ks c' :
  u2l_loop c l = (ks, c') ->
  count_of x c' = fold_left plus (values_of eqb x l) (count_of x c).
Proof.
  revert c ks c'; induction l as [|[k v] l IH]; cbn [ListToolsModel.u2l_loop]; intros c ks c'.
  - intros [= <- <-]. reflexivity.
  - destruct (u2l_loop (counter_add k v c) l) as [ks1 c1] eqn:E. intros [= <- <-].
    rewrite (IH _ _ _ E), count_of_add. unfold values_of; cbn [filter fst].
    destruct (eqb x k); reflexivity.
Qed.

Lemma u2l_loop_kept l pre c ks c' :
  (forall z, In z (keys c) <-> In z pre) ->
  u2l_loop c l = (ks, c') -> kept pre (map fst l) ks.
Proof.
  revert pre c ks c'; induction l as [|[k v] l IH]; cbn [ListToolsModel.u2l_loop map fst];
    intros pre c ks c' Hc.
  - intros [= <- <-]. constructor.
  - destruct (u2l_loop (counter_add k v c) l) as [ks1 c1] eqn:E. intros [= <- <-].
    assert (Hc' : forall z, In z (keys (counter_add k v c)) <-> In z (pre ++ [k])).
    { intros z. rewrite keys_counter_add, in_app_iff, Hc. cbn. intuition congruence. }
    specialize (IH (pre ++ [k]) _ _ _ Hc' E).
    destruct (mem eqb k c) eqn:Em; cbn.
    + apply kept_skip; [|exact IH]. apply Hc. apply mem_true in Em; assumption.
    + apply kept_keep; [|exact IH]. rewrite <- Hc. apply mem_false in Em; assumption.
Qed.

Lemma unique2lists_add_spec l1 l2 o1 o2 :
  unique2lists_add eqb plus zero l1 l2 = (o1, o2) ->
  distinct_in_order eqb o1 (map fst (combine l1 l2)) /\
  o2 = map (fun x => fold_left plus (values_of eqb x (combine l1 l2)) zero) o1.
Proof.
  unfold unique2lists_add.
  destruct (u2l_loop [] (combine l1 l2)) as [ks c] eqn:E. intros [= <- <-].
  assert (Hk : kept [] (map fst (combine l1 l2)) ks).
  { eapply u2l_loop_kept; [|exact E]. cbn. tauto. }
  apply (kept_spec _ Heqb) in Hk. destruct Hk as (H1 & H2 & H3). split.
  - split; [exact H1|]. split; [|exact H3]. intros x. rewrite H2. cbn. tauto.
  - apply map_ext. intros x. exact (u2l_loop_count _ _ x _ _ E).
Qed.

(* sumrepeats *)
Lemma counter_keys_app l (c : list (A * B)) :
  let c' := fold_left (fun c p => counter_add (fst p) (snd p) c) l c in
  exists ks, keys c' = keys c ++ ks /\ kept (keys c) (map fst l) ks.
Proof.
  assert (Hgen : forall l c pre, (forall z, In z (keys c) <-> In z pre) ->
    exists ks, keys (fold_left (fun c p => counter_add (fst p) (snd p) c) l c) = keys c ++ ks /\
               kept pre (map fst l) ks).
  { clear l c. induction l as [|[k v] l IH]; intros c pre Hc; cbn [fold_left map fst snd].
    - exists []. rewrite app_nil_r. split; [reflexivity|constructor].
    - destruct (IH (counter_add k v c) (pre ++ [k])) as (ks & Hk & Hkept).
      { intros z. rewrite keys_counter_add, in_app_iff, Hc. cbn. intuition congruence. }
      rewrite Hk; clear Hk. unfold ListToolsModel.counter_add.
      destruct (mem eqb k c) eqn:Em.
      + apply mem_true in Em; [|exact Heqb]. rewrite keys_assign_in by assumption.
        exists ks. split; [reflexivity|]. apply kept_skip; [|exact Hkept]. now apply Hc.
      + apply mem_false in Em; [|exact Heqb]. rewrite keys_assign_notin by assumption.
        exists (k :: ks). split.
        * unfold keys. rewrite map_app, <- app_assoc. reflexivity.
        * apply kept_keep; [|exact Hkept]. now rewrite <- Hc. }
  apply Hgen. tauto.
Qed.

Lemma fold_counter_count l (c : list (A * B)) x :
  count_of x (fold_left (fun c p => counter_add (fst p) (snd p) c) l c) =
  fold_left plus (values_of eqb x l) (count_of x c).
Proof.
  revert c; induction l as [|[k v] l IH]; intros c; cbn [fold_left fst snd]; [reflexivity|].
  rewrite IH, count_of_add. unfold values_of; cbn [filter fst].
  destruct (eqb x k); reflexivity.
Qed.

Lemma count_of_map (c : list (A * B)) :
  NoDup (keys c) -> map snd c = map (fun x => count_of x c) (keys c).
Proof.
  intros Hn. unfold keys. rewrite map_map. apply map_ext_in.
  intros [k v] Hi. cbn. unfold count_of. now rewrite (In_lookup eqb Heqb k v c Hn Hi).
Qed.

Lemma sumrepeats_spec l1 l2 o1 o2 :
  sumrepeats eqb plus zero l1 l2 = (o1, o2) ->
  distinct_in_order eqb o1 (map fst (combine l1 l2)) /\
  o2 = map (fun x => fold_left plus (values_of eqb x (combine l1 l2)) zero) o1.
Proof.
  unfold sumrepeats.
  set (c := fold_left _ (combine l1 l2) []). intros [= <- <-].
  destruct (counter_keys_app (combine l1 l2) []) as (ks & Hk & Hkept).
  fold c in Hk. cbn in Hk. apply (kept_spec _ Heqb) in Hkept. destruct Hkept as (H1 & H2 & H3).
  unfold keys in Hk. rewrite Hk. split.
  - split; [exact H1|]. split; [|exact H3]. intros x. rewrite H2. cbn. tauto.
  - rewrite count_of_map by (unfold keys; rewrite Hk; exact H1).
    unfold keys. rewrite Hk. apply map_ext. intros x. unfold c. rewrite fold_counter_count.
    reflexivity.
Qed.

(* total *)
Hypothesis plus_comm : forall x y, plus x y = plus y x.
Hypothesis plus_assoc : forall x y z, plus x (plus y z) = plus (plus x y) z.
Hypothesis plus_0 : forall x, plus zero x = x.

Lemma fold_plus_acc l a : fold_left plus l a = plus a (fold_left plus l zero).
Proof.
  revert a; induction l as [|b l IH]; intros a; cbn.
  - now rewrite plus_comm, plus_0.
  - rewrite IH, (IH (plus zero b)), plus_0, plus_assoc. reflexivity.
Qed.

Definition total (l : list B) : B := fold_left plus l zero.

Lemma total_cons x l : total (x :: l) = plus x (total l).
Proof. unfold total; cbn. rewrite fold_plus_acc, plus_0. reflexivity. Qed.

Lemma total_partition (ks : list A) (l : list (A * B)) :
  NoDup ks -> (forall x, In x (map fst l) -> In x ks) ->
  total (map (fun x => total (values_of eqb x l)) ks) = total (map snd l).
Proof.
  intros Hn. induction l as [|[k v] l IH]; intros Hin.
  - cbn. clear -plus_comm plus_assoc plus_0. induction ks as [|x ks IH]; [reflexivity|]. cbn [map].
    rewrite total_cons, IH. apply plus_0.
  - cbn [map snd]. rewrite total_cons, <- IH by (intros; apply Hin; cbn; auto).
    assert (Hk : In k ks) by (apply Hin; cbn; auto).
    clear IH Hin. induction ks as [|x ks IHk]; [destruct Hk|].
    inversion Hn as [|? ? Hxn Hn']; subst. cbn [map]. rewrite !total_cons.
    unfold values_of at 1. cbn [filter fst].
    destruct (eqb x k) eqn:E.
    + apply Heqb in E; subst x. cbn [map snd]. rewrite total_cons.
      fold (values_of eqb k l).
      replace (map (fun x => total (values_of eqb x ((k, v) :: l))) ks)
        with (map (fun x => total (values_of eqb x l)) ks).
      * rewrite plus_assoc. reflexivity.
      * apply map_ext_in. intros y Hy. unfold values_of; cbn [filter fst].
        destruct (eqb y k) eqn:Ey; [apply Heqb in Ey; subst; tauto|reflexivity].
    + fold (values_of eqb x l). destruct Hk as [->|Hk].
      { rewrite (deq_refl _ Heqb) in E; discriminate. }
      rewrite (IHk Hn' Hk). rewrite !plus_assoc. f_equal. apply plus_comm.
Qed.
End UniqueProofs.

Lemma unique_everseen_kept {A K} (eqb : K -> K -> bool) (H : decides_eq eqb) (key : A -> K) l pre seen :
  (forall z, In z seen <-> In z pre) ->
  kept pre (map key l) (map key (unique_everseen_from eqb key seen l)).
Proof.
  revert pre seen; induction l as [|x l IH]; intros pre seen Hs; cbn; [constructor|].
  destruct (existsb (eqb (key x)) seen) eqn:E.
  - apply (existsb_eqb _ H) in E. apply kept_skip; [now apply Hs|]. apply IH.
    intros z. rewrite in_app_iff, <- Hs. cbn. intuition congruence.
  - apply (existsb_eqb_false _ H) in E. cbn. apply kept_keep; [now rewrite <- Hs|].
    apply IH. intros z. rewrite in_app_iff, <- Hs. cbn. tauto.
Qed.

Lemma unique_everseen_spec {A K} (eqb : K -> K -> bool) (key : A -> K) l :
  decides_eq eqb ->
  distinct_in_order eqb (map key (unique_everseen eqb key l)) (map key l) /\
  incl (unique_everseen eqb key l) l.
Proof.
  intros H. split.
  - pose proof (unique_everseen_kept eqb H key l [] [] ltac:(tauto)) as Hk.
    apply (kept_spec _ H) in Hk. destruct Hk as (H1 & H2 & H3).
    split; [exact H1|]. split; [|exact H3]. intros x. rewrite H2. cbn. tauto.
  - unfold unique_everseen. generalize (@nil K) as seen.
    induction l as [|x l IH]; intros seen; cbn; [intros ? []|].
    destruct (existsb _ seen).
    + intros y Hy. right. exact (IH _ _ Hy).
    + intros y [->|Hy]; [left; auto|right; exact (IH _ _ Hy)].
Qed.

(* ---------- rearrangements ---------- *)
Lemma py_pop_ok {A} (l : list A) i k x :
  py_pos (length l) i = Some k -> nth_error l k = Some x ->
  py_pop l i = Ok (x, firstn k l ++ skipn (S k) l).
Proof. intros H1 H2. unfold py_pop. now rewrite H1, H2. Qed.

Lemma split_nth {A} (l : list A) k x :
  nth_error l k = Some x -> l = firstn k l ++ x :: skipn (S k) l.
Proof.
  revert k; induction l as [|a l IH]; intros [|k] H; cbn in *; try discriminate.
  - injection H as ->; reflexivity.
  - f_equal. auto.
Qed.

Lemma py_insert_perm {A} (l : list A) j x : Permutation (py_insert l j x) (x :: l).
Proof.
  unfold py_insert. set (k := Z.to_nat _).
  rewrite <- Permutation_middle. constructor. now rewrite firstn_skipn.
Qed.

Lemma move_perm {A} (l : list A) i j l' : move l i j = Ok l' -> Permutation l' l.
Proof.
  unfold move. destruct (i =? j); [intros [= ->]; reflexivity|].
  unfold py_pop. destruct (py_pos (length l) i) as [k|] eqn:E; [|discriminate].
  destruct (nth_error l k) as [x|] eqn:En; [|discriminate]. cbn. intros [= <-].
  rewrite py_insert_perm. rewrite (split_nth l k x En) at 3.
  apply Permutation_middle.
Qed.

Lemma nth_error_remove {A} (l : list A) k i :
  nth_error (firstn k l ++ skipn (S k) l) i =
  if Nat.ltb i k then nth_error l i else nth_error l (S i).
Proof.
  destruct (Nat.ltb_spec i k) as [Hlt|Hge].
  - destruct (Nat.ltb_spec i (length l)) as [Hl|Hl].
    + rewrite nth_error_app1 by (rewrite firstn_length; lia).
      rewrite nth_error_firstn'. destruct (Nat.ltb_spec i k); [reflexivity|lia].
    + rewrite (proj2 (nth_error_None l i)) by lia. apply nth_error_None.
      rewrite app_length, firstn_length, skipn_length. lia.
  - destruct (Nat.ltb_spec k (length l)) as [Hl|Hl].
    + rewrite nth_error_app2 by (rewrite firstn_length; lia).
      rewrite firstn_length, nth_error_skipn'. f_equal. lia.
    + rewrite (proj2 (nth_error_None l (S i))) by lia. apply nth_error_None.
      rewrite app_length, firstn_length, skipn_length. lia.
Qed.

Lemma move_spec {A} (l : list A) (i j : nat) :
  (i < length l)%nat -> (j < length l)%nat ->
  exists l', move l (Z.of_nat i) (Z.of_nat j) = Ok l' /\
    length l' = length l /\
    nth_error l' j = nth_error l i /\
    firstn j l' ++ skipn (S j) l' = firstn i l ++ skipn (S i) l.
Proof.
  intros Hi Hj. unfold move. destruct (Z.of_nat i =? Z.of_nat j) eqn:E.
  - assert (i = j) by lia; subst. exists l. auto.
  - assert (Hp : py_pos (length l) (Z.of_nat i) = Some i).
    { rewrite py_pos_nonneg by lia. now rewrite Nat2Z.id. }
    destruct (nth_error l i) as [x|] eqn:En.
    2: { apply nth_error_None in En. lia. }
    rewrite (py_pop_ok l _ i x Hp En). cbn [bind].
    set (r := firstn i l ++ skipn (S i) l).
    assert (Hr : length r = (length l - 1)%nat).
    { unfold r. rewrite app_length, firstn_length, skipn_length. lia. }
    unfold py_insert. rewrite Hr.
    destruct (Z.of_nat j <? 0) eqn:Ej; [lia|].
    replace (Z.to_nat (Z.min (Z.of_nat j) (Z.of_nat (length l - 1)))) with j by lia.
    exists (firstn j r ++ x :: skipn j r). split; [reflexivity|].
    assert (Hf : length (firstn j r) = j) by (rewrite firstn_length; lia).
    split; [|split].
    + rewrite app_length. cbn. rewrite Hf, skipn_length. lia.
    + rewrite nth_error_app2 by lia. rewrite Hf, Nat.sub_diag. reflexivity.
    + rewrite firstn_app, Hf, Nat.sub_diag. cbn [firstn].
      rewrite firstn_firstn, Nat.min_id, app_nil_r.
      rewrite skipn_app, Hf. rewrite (skipn_all2 (firstn j r)) by lia.
      replace (S j - j)%nat with 1%nat by lia. cbn.
      apply firstn_skipn.
Qed.

Lemma set_nth_split {A} (l : list A) k x :
  (k < length l)%nat -> set_nth l k x = firstn k l ++ x :: skipn (S k) l.
Proof.
  revert k; induction l as [|a l IH]; intros [|k] H; cbn in *; try lia; [reflexivity|].
  f_equal. apply IH. lia.
Qed.

Lemma swap_spec {A} (l : list A) (i j : Z) (a b : nat) :
  py_pos (length l) i = Some a -> py_pos (length l) j = Some b ->
  exists l', swap l i j = Ok l' /\ length l' = length l /\
    nth_error l' a = nth_error l b /\ nth_error l' b = nth_error l a /\
    (forall k, k <> a -> k <> b -> nth_error l' k = nth_error l k).
Proof.
  intros Ha Hb. pose proof (py_pos_bound _ _ _ Ha) as La.
  pose proof (py_pos_bound _ _ _ Hb) as Lb.
  unfold swap. destruct (i =? j) eqn:E.
  - apply Z.eqb_eq in E; subst. rewrite Ha in Hb; injection Hb as ->.
    exists l. auto.
  - unfold py_get. rewrite Ha, Hb.
    destruct (nth_error l a) as [xa|] eqn:Ea; [|apply nth_error_None in Ea; lia].
    destruct (nth_error l b) as [xb|] eqn:Eb; [|apply nth_error_None in Eb; lia].
    cbn. unfold py_set. rewrite Ha. cbn. rewrite set_nth_length, Hb.
    eexists; split; [reflexivity|]. rewrite !set_nth_length. split; [reflexivity|].
    repeat split.
    + rewrite !nth_error_set_nth, !set_nth_length.
      destruct (Nat.eqb_spec a b) as [->|Hab].
      * destruct (Nat.ltb_spec b (length l)); [congruence|lia].
      * rewrite Nat.eqb_refl. destruct (Nat.ltb_spec a (length l)); [congruence|lia].
    + rewrite nth_error_set_nth, Nat.eqb_refl, set_nth_length.
      destruct (Nat.ltb_spec b (length l)); [congruence|lia].
    + intros k Hka Hkb. rewrite !nth_error_set_nth.
      destruct (Nat.eqb_spec k b); [lia|]. destruct (Nat.eqb_spec k a); [lia|]. reflexivity.
Qed.

Lemma swap_err {A} (l : list A) (i j : Z) :
  i <> j -> (py_pos (length l) i = None \/ py_pos (length l) j = None) ->
  swap l i j = Err IndexError.
Proof.
  intros Hne H. unfold swap. destruct (i =? j) eqn:E; [lia|].
  unfold py_get. destruct (py_pos (length l) j) as [b|] eqn:Eb; [|reflexivity].
  destruct H as [H|H]; [|discriminate]. rewrite H.
  pose proof (py_pos_bound _ _ _ Eb). destruct (nth_error l b); reflexivity.
Qed.

Lemma swap_involutive {A} (l l' : list A) i j :
  swap l i j = Ok l' -> swap l' i j = Ok l.
Proof.
  destruct (Z.eq_dec i j) as [->|Hne].
  { unfold swap. rewrite Z.eqb_refl. congruence. }
  destruct (py_pos (length l) i) as [a|] eqn:Ea.
  2: { rewrite swap_err by auto. discriminate. }
  destruct (py_pos (length l) j) as [b|] eqn:Eb.
  2: { rewrite swap_err by auto. discriminate. }
  destruct (swap_spec l i j a b Ea Eb) as (l1 & -> & Hlen & H1 & H2 & H3).
  intros [= ->]. rewrite <- Hlen in Ea, Eb.
  destruct (swap_spec l' i j a b Ea Eb) as (l2 & -> & Hlen2 & H4 & H5 & H6).
  f_equal. apply list_eq_nth_error. intros k.
  destruct (Nat.eq_dec k a) as [->|]; [congruence|].
  destruct (Nat.eq_dec k b) as [->|]; [congruence|].
  rewrite H6, H3; auto.
Qed.

Lemma swap_perm {A} (l l' : list A) i j : swap l i j = Ok l' -> Permutation l' l.
Proof.
  destruct (Z.eq_dec i j) as [->|Hne].
  { unfold swap. rewrite Z.eqb_refl. intros [= ->]; reflexivity. }
  destruct (py_pos (length l) i) as [a|] eqn:Ea.
  2: { rewrite swap_err by auto. discriminate. }
  destruct (py_pos (length l) j) as [b|] eqn:Eb.
  2: { rewrite swap_err by auto. discriminate. }
  destruct (swap_spec l i j a b Ea Eb) as (l1 & -> & Hlen & H1 & H2 & H3).
  intros [= ->]. symmetry.
  apply Permutation_nth_error_bis.
  exists (fun k => if Nat.eqb k a then b else if Nat.eqb k b then a else k).
  pose proof (py_pos_bound _ _ _ Ea). pose proof (py_pos_bound _ _ _ Eb).
  split; [|split].
  - intros x y.
    destruct (Nat.eqb_spec x a), (Nat.eqb_spec x b), (Nat.eqb_spec y a), (Nat.eqb_spec y b); lia.
  - intros k Hk. destruct (Nat.eqb_spec k a), (Nat.eqb_spec k b); lia.
  - intros k. destruct (Nat.eqb_spec k a) as [->|]; [auto|].
    destruct (Nat.eqb_spec k b) as [->|]; [auto|]. auto.
Qed.

(* roll *)
Lemma cycle_slice_nth {A} (l : list A) a m i :
  (i < m)%nat -> l <> [] ->
  nth_error (cycle_slice l a m) i = nth_error l ((a + i) mod length l).
Proof.
  intros Hi Hl. destruct l as [|x l0] eqn:E; [congruence|]. rewrite <- E in *.
  replace (cycle_slice l a m) with (map (fun k => nth (k mod length l) l x) (seq a m))
    by (rewrite E; reflexivity).
  rewrite nth_error_map, nth_error_seq'.
  destruct (Nat.ltb_spec i m); [|lia]. cbn [option_map].
  symmetry. apply nth_error_nth'. apply Nat.mod_upper_bound. rewrite E; cbn; lia.
Qed.

Lemma roll_length {A} (l : list A) n : length (roll l n) = length l.
Proof.
  unfold roll. destruct (n =? 0); [reflexivity|].
  destruct l as [|x l]; [reflexivity|]. unfold cycle_slice.
  now rewrite map_length, seq_length.
Qed.

Lemma roll_spec {A} (l : list A) n i :
  0 <= n -> (i < length l)%nat ->
  nth_error (roll l n) i = nth_error l ((i + Z.to_nat n) mod length l).
Proof.
  intros Hn Hi. unfold roll. destruct (n =? 0) eqn:E.
  - apply Z.eqb_eq in E; subst. cbn. rewrite Nat.add_0_r, Nat.mod_small by exact Hi. reflexivity.
  - rewrite cycle_slice_nth; [|exact Hi|intros ->; cbn in Hi; lia].
    rewrite Z.abs_eq by exact Hn. f_equal. f_equal. lia.
Qed.

Lemma roll_abs {A} (l : list A) n : roll l (- n) = roll l n.
Proof.
  unfold roll. rewrite Z.abs_opp.
  destruct (n =? 0) eqn:E1, (- n =? 0) eqn:E2; try reflexivity; lia.
Qed.

Lemma roll_perm {A} (l : list A) n : Permutation (roll l n) l.
Proof.
  assert (Hpos : forall n, 0 <= n -> Permutation (roll l n) l).
  2: { destruct (Z.le_gt_cases 0 n) as [H|H]; [auto|].
       rewrite <- roll_abs. apply Hpos. lia. }
  clear n. intros n Hn.
  set (m := length l).
  assert (E : roll l n = skipn (Z.to_nat n mod m) l ++ firstn (Z.to_nat n mod m) l).
  { destruct (Nat.eq_dec m 0) as [H0|H0].
    { unfold m in H0. destruct l; [|discriminate]. unfold roll.
      destruct (n =? 0); cbn; now rewrite skipn_nil, firstn_nil. }
    apply list_eq_nth_error. intros i.
    pose proof (Nat.mod_upper_bound (Z.to_nat n) m H0) as Hb.
    set (r := (Z.to_nat n mod m)%nat) in *.
    destruct (Nat.ltb_spec i m) as [Hi|Hi].
    - rewrite roll_spec by (auto; exact Hi). fold m.
      assert (Hr : ((i + Z.to_nat n) mod m = (i + r) mod m)%nat).
      { unfold r. rewrite Nat.add_mod_idemp_r by exact H0. reflexivity. }
      rewrite Hr. destruct (Nat.ltb_spec (i + r) m) as [Hir|Hir].
      + rewrite Nat.mod_small by exact Hir.
        rewrite nth_error_app1 by (rewrite skipn_length; fold m; lia).
        rewrite nth_error_skipn'. f_equal. lia.
      + rewrite nth_error_app2 by (rewrite skipn_length; fold m; lia).
        rewrite skipn_length. fold m. rewrite nth_error_firstn'.
        destruct (Nat.ltb_spec (i - (m - r)) r); [|lia]. f_equal.
        replace (i + r)%nat with ((i - (m - r)) + 1 * m)%nat by lia.
        rewrite Nat.mod_add by exact H0. apply Nat.mod_small. lia.
    - rewrite (proj2 (nth_error_None _ _)) by (rewrite roll_length; fold m; lia).
      symmetry. apply nth_error_None. rewrite app_length, skipn_length, firstn_length. fold m. lia. }
  rewrite E. rewrite Permutation_app_comm. now rewrite firstn_skipn.
Qed.

Lemma unique_total {A} (eqb : A -> A -> bool) :
  decides_eq eqb ->
  forall l1 (l2 : list Qc) o1 o2,
    sumrepeats eqb Qcplus 0%Qc l1 l2 = (o1, o2) \/ unique2lists_add eqb Qcplus 0%Qc l1 l2 = (o1, o2) ->
    length l1 = length l2 ->
    fold_left Qcplus o2 0%Qc = fold_left Qcplus l2 0%Qc.
Proof.
  intros Heqb l1 l2 o1 o2 H Hlen.
  assert (Hs : distinct_in_order eqb o1 (map fst (combine l1 l2)) /\
    o2 = map (fun x => fold_left Qcplus (values_of eqb x (combine l1 l2)) 0%Qc) o1).
  { destruct H as [H|H]; [eapply sumrepeats_spec|eapply unique2lists_add_spec]; eauto. }
  destruct Hs as [(Hn & Hi & _) ->].
  assert (Hl2 : l2 = map snd (combine l1 l2)).
  { clear -Hlen. revert l2 Hlen; induction l1 as [|x l1 IH]; intros [|y l2] H; cbn in *; try discriminate; auto.
    f_equal. apply IH. lia. }
  transitivity (fold_left Qcplus (map snd (combine l1 l2)) 0%Qc); [|now rewrite <- Hl2].
  apply (total_partition eqb Heqb Qcplus 0%Qc Qcplus_comm Qcplus_assoc Qcplus_0_l).
  - exact Hn.
  - intros x Hx. now apply Hi.
Qed.

Lemma move_negative_refuted :
  exists (l l' : list Z), move l 0 (-1) = Ok l' /\ py_get l' (-1) <> py_get l 0.
Proof. exists [1; 2; 3], [2; 1; 3]. split; [reflexivity|]. vm_compute. discriminate. Qed.

Lemma roll_negative :
  (forall (A : Type) (l : list A) n, roll l (- n) = roll l n) /\
  exists (l : list Z) n i, 0 <= i < Z.of_nat (length l) /\
    py_get (roll l n) i <> py_get l ((i + n) mod Z.of_nat (length l)).
Proof.
  split; [exact @roll_abs|]. exists [1; 2; 3], (-1), 0.
  split; [cbn; lia|]. vm_compute. discriminate.
Qed.

Lemma listadvanced_bool_length :
  exists (l : list Z) b out, length b <> length l /\ listadvanced l (BoolIdx b) = Ok out.
Proof. exists [1; 2; 3], [true], [1]. split; [cbn; lia|reflexivity]. Qed.

Lemma where_spec {A} (l : list A) (f : A -> bool) :
    StronglySorted lt (where_idx l f) /\
    (forall i, In i (where_idx l f) <-> exists x, nth_error l i = Some x /\ f x = true).
Proof.
  split; [apply where_from_sorted|]. intros i. unfold where_idx. rewrite where_from_spec.
  rewrite Nat.sub_0_r. split; intros (x & H); exists x; intuition lia.
Qed.

Lemma unique_everseen_first {A K} (eqb : K -> K -> bool) (key : A -> K) (l : list A) :
    decides_eq eqb ->
    distinct_in_order eqb (map key (unique_everseen eqb key l)) (map key l) /\
    (forall x, In x (unique_everseen eqb key l) ->
       find (fun y => eqb (key x) (key y)) l = Some x).
Proof.
  intros H. split; [apply unique_everseen_spec; exact H|].
  assert (G : forall seen x, In x (unique_everseen_from eqb key seen l) ->
            find (fun y => eqb (key x) (key y)) l = Some x /\ ~ In (key x) seen).
  2: { intros x Hx. apply (G [] x). exact Hx. }
  induction l as [|y l IH]; intros seen x; cbn; [intros []|].
  destruct (existsb (eqb (key y)) seen) eqn:E.
  - intros Hx. destruct (IH _ _ Hx) as [Hf Hn]. apply (existsb_eqb _ H) in E.
    destruct (eqb (key x) (key y)) eqn:Exy; [|auto].
    apply H in Exy. rewrite Exy in Hn. tauto.
  - apply (existsb_eqb_false _ H) in E. intros [->|Hx].
    + rewrite (deq_refl _ H). auto.
    + destruct (IH _ _ Hx) as [Hf Hn]. cbn in Hn.
      destruct (eqb (key x) (key y)) eqn:Exy; [|tauto].
      apply H in Exy. rewrite Exy in Hn. tauto.
Qed.
