From Verif Require Import BaseProofs ListToolsProofs RoiModel RoiSpec.

Lemma clip_inside n a b : 0 <= n ->
  0 <= clip_low n a <= Z.max 0 (n - 1) /\ 0 <= clip_high n b <= n.
Proof. intros Hn. unfold clip_low, clip_high. destruct a, b; lia. Qed.

Lemma clip_idempotent n a b : 0 <= n ->
  clip_low n (Some (clip_low n a)) = clip_low n a /\
  clip_high n (Some (clip_high n b)) = clip_high n b.
Proof.
  intros Hn. unfold clip_low, clip_high.
  destruct a as [a|], b as [b|]; cbn; split;
  repeat match goal with |- context [if ?c then _ else _] => destruct c eqn:? end; lia.
Qed.

Lemma clip_identity n a b : 0 <= a < n -> 0 <= b <= n ->
  clip_low n (Some a) = a /\ clip_high n (Some b) = b.
Proof.
  intros Ha Hb. unfold clip_low, clip_high.
  destruct (Z.ltb_spec a 0), (Z.ltb_spec b 0); lia.
Qed.

Lemma cliproi_ok shape roi :
  length shape = length roi ->
  exists out, cliproi shape roi = Ok out /\ length out = length shape /\
  forall i n a b, nth_error shape i = Some n -> nth_error roi i = Some (a, b) ->
    nth_error out i = Some (clip_low n a, clip_high n b).
Proof.
  intros Hl. unfold cliproi. rewrite (proj2 (Nat.eqb_eq _ _) Hl).
  eexists. split; [reflexivity|]. split; [rewrite map_length, combine_length; lia|].
  intros i n a b Hn Hr. rewrite nth_error_map.
  assert (Hc : nth_error (combine shape roi) i = Some (n, (a, b))).
  { clear Hl. revert shape roi Hn Hr. induction i as [|i IH]; intros [|s shape] [|r roi]; cbn; try discriminate.
    - congruence. - apply IH. }
  rewrite Hc. reflexivity.
Qed.

Lemma cliproi_inside shape roi out :
  Forall (fun n => 0 <= n) shape -> cliproi shape roi = Ok out ->
  Forall2 (fun n p => 0 <= fst p <= Z.max 0 (n - 1) /\ 0 <= snd p <= n) shape out.
Proof.
  unfold cliproi. destruct (Nat.eqb_spec (length shape) (length roi)) as [Hl|]; [|discriminate].
  intros Hf [= <-]. revert roi Hl. induction Hf as [|n shape Hn Hf IH]; intros [|[a b] roi]; cbn;
    try discriminate; constructor; auto.
  cbn. apply clip_inside. exact Hn.
Qed.

Lemma cliproi_idempotent shape roi out :
  Forall (fun n => 0 <= n) shape -> cliproi shape roi = Ok out ->
  cliproi shape (map (fun p => (Some (fst p), Some (snd p))) out) = Ok out.
Proof.
  unfold cliproi. destruct (Nat.eqb_spec (length shape) (length roi)) as [Hl|]; [|discriminate].
  intros Hf [= <-].
  rewrite !map_length, combine_length, <- Hl, Nat.min_id, Nat.eqb_refl. f_equal.
  revert roi Hl. induction Hf as [|n shape Hn Hf IH]; intros [|[a b] roi]; cbn [map combine length fst snd];
    try discriminate; auto.
  intros [= Hl]. rewrite IH by exact Hl. f_equal.
  pose proof (clip_idempotent n a b Hn) as [H1 H2]. f_equal; assumption.
Qed.

Lemma cliproi_err shape roi e :
  cliproi shape roi = Err e <-> e = ValueError /\ length shape <> length roi.
Proof.
  unfold cliproi. destruct (Nat.eqb_spec (length shape) (length roi)).
  - split; [discriminate|tauto].
  - split; [intros [= <-]; auto|]. intros [-> _]. reflexivity.
Qed.

Lemma clip_selects {A} (l : list A) a b :
  match a with Some a => a < Z.of_nat (length l) | None => True end ->
  let n := Z.of_nat (length l) in
  py_slice l (Some (clip_low n a)) (Some (clip_high n b)) = py_slice l a b.
Proof.
  intros Ha n. unfold py_slice. fold n.
  assert (H1 : slice_bound n 0 (Some (clip_low n a)) = slice_bound n 0 a).
  { unfold slice_bound, clip_low. destruct a as [a|]; [|cbn; unfold n; lia].
    fold n in Ha. repeat match goal with |- context [if ?c then _ else _] => destruct c eqn:? end; lia. }
  assert (H2 : slice_bound n n (Some (clip_high n b)) = slice_bound n n b).
  { unfold slice_bound, clip_high. destruct b as [b|]; cbv beta iota zeta;
    repeat match goal with |- context [if ?c then _ else _] => destruct c eqn:? end; unfold n in *; lia. }
  rewrite H1, H2. reflexivity.
Qed.

Lemma clip_beyond {A} (l : list A) (d : A) a b :
  l <> [] -> Z.of_nat (length l) <= a ->
  match b with Some b => Z.of_nat (length l) <= b | None => True end ->
  let n := Z.of_nat (length l) in
  py_slice l (Some a) b = [] /\
  py_slice l (Some (clip_low n (Some a))) (Some (clip_high n b)) = [last l d].
Proof.
  intros Hl Ha Hb n. assert (Hn : 0 < n) by (destruct l; [congruence|unfold n; cbn; lia]).
  unfold py_slice. fold n in Ha, Hb |- *. split.
  - replace (slice_bound n 0 (Some a)) with n.
    2: { unfold slice_bound. destruct (Z.ltb_spec a 0); lia. }
    replace (slice_bound n n b) with n.
    2: { unfold slice_bound. destruct b as [b|]; [destruct (Z.ltb_spec b 0); lia|reflexivity]. }
    rewrite Z.sub_diag. reflexivity.
  - replace (slice_bound n 0 (Some (clip_low n (Some a)))) with (n - 1).
    2: { unfold slice_bound, clip_low. destruct (Z.ltb_spec a 0); [lia|].
         destruct (Z.ltb_spec (Z.max 0 (Z.min a (n - 1))) 0); lia. }
    replace (slice_bound n n (Some (clip_high n b))) with n.
    2: { unfold slice_bound, clip_high. destruct b as [b|].
         - destruct (Z.ltb_spec b 0); [lia|]. destruct (Z.ltb_spec (Z.max 0 (Z.min b n)) 0); lia.
         - destruct (Z.ltb_spec n 0); lia. }
    replace (n - (n - 1)) with 1 by lia. unfold n.
    destruct (exists_last Hl) as (l' & x & ->). rewrite last_last, app_length. cbn [length].
    replace (Z.to_nat (Z.of_nat (length l' + 1) - 1)) with (length l' + 0)%nat by lia.
    rewrite skipn_app, skipn_all2 by lia. replace (length l' + 0 - length l')%nat with 0%nat by lia.
    reflexivity.
Qed.

(* ---- merging ---- *)
Section Merge.
Context {A : Type} (le : A -> A -> bool) (Hle : total_order le).

Lemma le_refl x : le x x = true.
Proof. destruct Hle as (Ht & _). destruct (Ht x x); assumption. Qed.
Lemma le_trans x y z : le x y = true -> le y z = true -> le x z = true.
Proof. destruct Hle as (_ & H & _). apply H. Qed.
Lemma le_flip x y : le x y = false -> le y x = true.
Proof. destruct Hle as (Ht & _). destruct (Ht x y); congruence. Qed.

Lemma le_max x a b : le x (py_max le a b) = true <-> le x a = true \/ le x b = true.
Proof.
  unfold py_max. destruct (le b a) eqn:E.
  - split; [auto|]. intros [H|H]; [exact H|]. eapply le_trans; eauto.
  - apply le_flip in E. split; [auto|]. intros [H|H]; [|exact H]. eapply le_trans; eauto.
Qed.
Lemma max_le x a b : le (py_max le a b) x = false <-> le a x = false \/ le b x = false.
Proof.
  unfold py_max. destruct (le b a) eqn:E.
  - split; [auto|]. intros [H|H]; [exact H|]. destruct (le a x) eqn:E2; [|reflexivity].
    rewrite (le_trans _ _ _ E E2) in H. discriminate.
  - apply le_flip in E. split; [auto|]. intros [H|H]; [|exact H]. destruct (le b x) eqn:E2; [|reflexivity].
    rewrite (le_trans _ _ _ E E2) in H. discriminate.
Qed.

Notation S1 := (StronglySorted (fun p q : A * A => le (fst p) (fst q) = true)).

Lemma merge_loop_closed x ivs : forall low high,
  S1 ((low, high) :: ivs) ->
  (exists p, In p (merge_loop le low high ivs) /\ in_closed le x p) <->
  (exists p, In p ((low, high) :: ivs) /\ in_closed le x p).
Proof.
  induction ivs as [|[a b] ivs IH]; intros low high Hs; [reflexivity|].
  inversion Hs as [|? ? Hs1 Hf]; subst. inversion Hs1 as [|? ? Hs2 Hf2]; subst.
  inversion Hf as [|? ? Hla Hf3]; subst. cbn [fst snd] in Hla.
  cbn [merge_loop fst snd]. destruct (le a high) eqn:E.
  - rewrite IH by (constructor; assumption). split.
    + intros (p & [<-|Hp] & Hx).
      * destruct Hx as [H1 H2]. cbn [fst snd] in *. apply le_max in H2. destruct H2 as [H2|H2].
        -- exists (low, high). cbn. unfold in_closed. auto.
        -- destruct (le a x) eqn:Eax.
           ++ exists (a, b). cbn. unfold in_closed. auto.
           ++ apply le_flip in Eax. exists (low, high). split; [cbn; auto|].
              split; [exact H1|]. cbn. eapply le_trans; eauto.
      * exists p. cbn. auto.
    + intros (p & [<-|[<-|Hp]] & Hx).
      * destruct Hx as [H1 H2]. exists (low, py_max le high b). split; [cbn; auto|].
        split; cbn in *; [exact H1|]. apply le_max; auto.
      * destruct Hx as [H1 H2]. exists (low, py_max le high b). split; [cbn; auto|].
        split; cbn in *; [eapply le_trans; eauto|]. apply le_max; auto.
      * exists p. cbn. auto.
  - split.
    + intros (p & [<-|Hp] & Hx).
      * exists (low, high). cbn. auto.
      * destruct (proj1 (IH a b Hs1)) as (p' & Hp' & Hx'); [eauto|]. exists p'. cbn in *. tauto.
    + intros (p & [<-|Hp] & Hx).
      * exists (low, high). cbn. auto.
      * destruct (proj2 (IH a b Hs1)) as (p' & Hp' & Hx'); [eauto|]. exists p'. cbn in *. tauto.
Qed.

Lemma merge_loop_half_open x ivs : forall low high,
  S1 ((low, high) :: ivs) ->
  (exists p, In p (merge_loop le low high ivs) /\ in_half_open le x p) <->
  (exists p, In p ((low, high) :: ivs) /\ in_half_open le x p).
Proof.
  induction ivs as [|[a b] ivs IH]; intros low high Hs; [reflexivity|].
  inversion Hs as [|? ? Hs1 Hf]; subst. inversion Hs1 as [|? ? Hs2 Hf2]; subst.
  inversion Hf as [|? ? Hla Hf3]; subst. cbn [fst snd] in Hla.
  cbn [merge_loop fst snd]. destruct (le a high) eqn:E.
  - rewrite IH by (constructor; assumption). split.
    + intros (p & [<-|Hp] & Hx).
      * destruct Hx as [H1 H2]. cbn [fst snd] in *. apply max_le in H2. destruct H2 as [H2|H2].
        -- exists (low, high). cbn. unfold in_half_open. auto.
        -- destruct (le a x) eqn:Eax.
           ++ exists (a, b). cbn. unfold in_half_open. auto.
           ++ exists (low, high). split; [cbn; auto|].
              split; [exact H1|]. cbn. destruct (le high x) eqn:Eh; [|reflexivity].
              rewrite (le_trans _ _ _ E Eh) in Eax. discriminate.
      * exists p. cbn. auto.
    + intros (p & [<-|[<-|Hp]] & Hx).
      * destruct Hx as [H1 H2]. exists (low, py_max le high b). split; [cbn; auto|].
        split; cbn in *; [exact H1|]. apply max_le; auto.
      * destruct Hx as [H1 H2]. exists (low, py_max le high b). split; [cbn; auto|].
        split; cbn in *; [eapply le_trans; eauto|]. apply max_le; auto.
      * exists p. cbn. auto.
  - split.
    + intros (p & [<-|Hp] & Hx).
      * exists (low, high). cbn. auto.
      * destruct (proj1 (IH a b Hs1)) as (p' & Hp' & Hx'); [eauto|]. exists p'. cbn in *. tauto.
    + intros (p & [<-|Hp] & Hx).
      * exists (low, high). cbn. auto.
      * destruct (proj2 (IH a b Hs1)) as (p' & Hp' & Hx'); [eauto|]. exists p'. cbn in *. tauto.
Qed.

Lemma merge_loop_head ivs : forall low high,
  exists h l, merge_loop le low high ivs = (low, h) :: l.
Proof.
  induction ivs as [|[a b] ivs IH]; intros low high; cbn; [eauto|].
  destruct (le a high); eauto.
Qed.

Lemma merge_loop_separated ivs : forall low high, separated le (merge_loop le low high ivs).
Proof.
  induction ivs as [|[a b] ivs IH]; intros low high; cbn [merge_loop fst snd]; [exact I|].
  destruct (le a high) eqn:E; [apply IH|].
  destruct (merge_loop_head ivs a b) as (h & l & Hm). specialize (IH a b). rewrite Hm in *.
  split; [exact E|exact IH].
Qed.

Lemma merge_loop_sorted ivs : forall low high,
  S1 ((low, high) :: ivs) -> S1 (merge_loop le low high ivs).
Proof.
  assert (Hall : forall ivs low high, S1 ((low, high) :: ivs) ->
            S1 (merge_loop le low high ivs) /\
            Forall (fun p => le low (fst p) = true) (merge_loop le low high ivs)).
  { clear ivs. induction ivs as [|[a b] ivs IH]; intros low high Hs.
    - cbn. split; [repeat constructor|]. constructor; [apply le_refl|constructor].
    - inversion Hs as [|? ? Hs1 Hf]; subst. inversion Hs1 as [|? ? Hs2 Hf2]; subst.
      inversion Hf as [|? ? Hla Hf3]; subst. cbn [fst snd] in Hla.
      cbn [merge_loop fst snd]. destruct (le a high) eqn:E.
      + apply IH. constructor; assumption.
      + destruct (IH a b Hs1) as [H1 H2].
        assert (H3 : Forall (fun p => le low (fst p) = true) (merge_loop le a b ivs)).
        { eapply Forall_impl; [|exact H2]. cbn. intros p Hp. eapply le_trans; eauto. }
        split; [constructor; [exact H1|exact H3]|constructor; [apply le_refl|exact H3]]. }
  intros low high Hs. now apply Hall.
Qed.

Lemma sorted_S1 (ivs : list (A * A)) : S1 (sorted (fun p q => le (fst p) (fst q)) ivs).
Proof.
  destruct Hle as (Ht & Htr & _). apply (sorted_sorted (fun p q => le (fst p) (fst q))).
  - intros p q. apply Ht. - intros p q r. apply Htr.
Qed.

Lemma mergeroi_closed ivs x :
  (exists p, In p (mergeroi1d le ivs) /\ in_closed le x p) <-> (exists p, In p ivs /\ in_closed le x p).
Proof.
  unfold mergeroi1d. pose proof (sorted_S1 ivs) as Hs.
  pose proof (sorted_perm (fun p q => le (fst p) (fst q)) ivs) as Hp.
  assert (Hiff : (exists p, In p ivs /\ in_closed le x p) <->
     (exists p, In p (sorted (fun p q => le (fst p) (fst q)) ivs) /\ in_closed le x p)).
  { split; intros (p & Hi & Hx); exists p; (split; [|exact Hx]).
    - eapply Permutation_in; [symmetry; exact Hp|exact Hi].
    - eapply Permutation_in; [exact Hp|exact Hi]. }
  rewrite Hiff. destruct (sorted _ ivs) as [|[low high] l]; [reflexivity|].
  apply merge_loop_closed. exact Hs.
Qed.

Lemma mergeroi_half_open ivs x :
  (exists p, In p (mergeroi1d le ivs) /\ in_half_open le x p) <-> (exists p, In p ivs /\ in_half_open le x p).
Proof.
  unfold mergeroi1d. pose proof (sorted_S1 ivs) as Hs.
  pose proof (sorted_perm (fun p q => le (fst p) (fst q)) ivs) as Hp.
  assert (Hiff : (exists p, In p ivs /\ in_half_open le x p) <->
     (exists p, In p (sorted (fun p q => le (fst p) (fst q)) ivs) /\ in_half_open le x p)).
  { split; intros (p & Hi & Hx); exists p; (split; [|exact Hx]).
    - eapply Permutation_in; [symmetry; exact Hp|exact Hi].
    - eapply Permutation_in; [exact Hp|exact Hi]. }
  rewrite Hiff. destruct (sorted _ ivs) as [|[low high] l]; [reflexivity|].
  apply merge_loop_half_open. exact Hs.
Qed.

Lemma mergeroi_shape ivs :
  separated le (mergeroi1d le ivs) /\
  StronglySorted (fun p q => le (fst p) (fst q) = true) (mergeroi1d le ivs).
Proof.
  unfold mergeroi1d. pose proof (sorted_S1 ivs) as Hs.
  destruct (sorted _ ivs) as [|[low high] l]; [split; [exact I|constructor]|].
  split; [apply merge_loop_separated|now apply merge_loop_sorted].
Qed.

Lemma sorted_of_sorted (l : list (A * A)) : S1 l -> sorted (fun p q => le (fst p) (fst q)) l = l.
Proof.
  induction 1 as [|p l Hs IH Hf]; [reflexivity|]. cbn [sorted]. rewrite IH.
  destruct l as [|q l]; [reflexivity|]. cbn. inversion Hf; subst. rewrite H1. reflexivity.
Qed.

Lemma merge_loop_id ivs : forall low high, separated le ((low, high) :: ivs) ->
  merge_loop le low high ivs = (low, high) :: ivs.
Proof.
  induction ivs as [|[a b] ivs IH]; intros low high H; [reflexivity|].
  destruct H as [H1 H2]. cbn [merge_loop fst snd] in *. rewrite H1. now rewrite IH.
Qed.

Lemma mergeroi_idempotent ivs : mergeroi1d le (mergeroi1d le ivs) = mergeroi1d le ivs.
Proof.
  destruct (mergeroi_shape ivs) as [Hsep Hs]. unfold mergeroi1d at 1.
  rewrite sorted_of_sorted by exact Hs. destruct (mergeroi1d le ivs) as [|[low high] l]; [reflexivity|].
  now apply merge_loop_id.
Qed.

(* the result only depends on the set of intervals given: any order will do *)
Lemma merge_in_ends ivs p : In p (mergeroi1d le ivs) ->
  (exists q, In q ivs /\ fst q = fst p) /\ (exists q, In q ivs /\ snd q = snd p).
Proof.
  assert (H : forall l low high p, In p (merge_loop le low high l) ->
     (exists q, In q ((low, high) :: l) /\ fst q = fst p) /\
     (exists q, In q ((low, high) :: l) /\ snd q = snd p)).
  { clear. induction l as [|[a b] l IH]; intros low high p.
    - cbn. intros [<-|[]]. split; exists (low, high); auto.
    - cbn [merge_loop fst snd]. destruct (le a high).
      + intros Hp. apply IH in Hp. destruct Hp as [(q1 & [<-|H1] & E1) (q2 & [<-|H2] & E2)].
        all: split; [try (exists (low, high); cbn; auto; fail); exists q1; cbn; auto|].
        all: try (exists q2; cbn; auto; fail).
        all: unfold py_max in *; cbn in *; destruct (le b high); eauto.
      + intros [<-|Hp]; [split; exists (low, high); cbn; auto|].
        apply IH in Hp. destruct Hp as [(q1 & H1 & E1) (q2 & H2 & E2)].
        split; [exists q1|exists q2]; cbn in *; tauto. }
  unfold mergeroi1d. pose proof (sorted_perm (fun p q => le (fst p) (fst q)) ivs) as Hp.
  destruct (sorted _ ivs) as [|[low high] l]; [intros []|].
  intros Hi. apply H in Hi. destruct Hi as [(q1 & H1 & E1) (q2 & H2 & E2)].
  split; [exists q1|exists q2]; (split; [eapply Permutation_in; [exact Hp|assumption]|assumption]).
Qed.
End Merge.
