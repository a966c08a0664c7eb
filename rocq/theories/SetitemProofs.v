From Verif Require Import GetitemProofs OpsProofs SetitemModel SetitemSpec.
From Coq Require Import Sorted.
Local Open Scope nat_scope.

(* ---- the order of the coordinates ---- *)
Fixpoint lex (a b : list nat) : Prop :=
  match a, b with x :: a', y :: b' => x < y \/ x = y /\ lex a' b' | _, _ => False end.
Lemma lex_irrefl a : ~ lex a a.
Proof. induction a as [|x a IH]; cbn; [tauto|]. intros [H|[_ H]]; [lia|auto]. Qed.
Lemma lex_asym a : forall b, lex a b -> lex b a -> False.
Proof.
  induction a as [|x a IH]; intros [|y b]; cbn; try tauto. intros [H|[H1 H2]] [H'|[H1' H2']]; solve [lia|eauto].
Qed.
Lemma lex_insert i : forall k k' a b, i <= length a -> length a = length b -> (k < k' /\ a = b \/ k = k' /\ lex a b) ->
  lex (insert_at i k a) (insert_at i k' b).
Proof.
  induction i as [|i IH]; intros k k' a b Hi Hl H.
  - rewrite !insert_0. cbn. destruct H as [[H ->]|[-> H]]; auto.
  - destruct a as [|x a], b as [|y b]; cbn in Hi, Hl; try lia. rewrite !insert_cons. cbn [lex].
    destruct H as [[H E]|[-> H]].
    + injection E as -> ->. right. split; [reflexivity|]. apply IH; [lia|lia|now left].
    + cbn in H. destruct H as [H|[-> H]]; [now left|right]. split; [reflexivity|]. apply IH; [lia|lia|now right].
Qed.
Lemma coords_In s : forall o, In o (coords s) <-> inside s o.
Proof.
  induction s as [|n s IH]; intros o; cbn.
  - split; [intros [<-|[]]; constructor|]. intros H. inversion H. now left.
  - rewrite in_flat_map. split.
    + intros (k & Hk & H). apply in_map_iff in H. destruct H as (o' & <- & H). apply in_seq in Hk.
      constructor; [lia|]. now apply IH.
    + intros H. inversion H as [|? k ? o' Hk Ho]; subst. exists k. split; [apply in_seq; lia|].
      apply in_map. now apply IH.
Qed.
Lemma sorted_app {A} (R : A -> A -> Prop) l1 l2 : StronglySorted R l1 -> StronglySorted R l2 ->
  (forall x y, In x l1 -> In y l2 -> R x y) -> StronglySorted R (l1 ++ l2).
Proof.
  induction 1 as [|x l1 H1 IH Hx]; intros H2 H; [exact H2|]. cbn. constructor.
  - apply IH; [assumption|]. intros a b Ha Hb. apply H; [now right|assumption].
  - apply Forall_app. split; [assumption|]. apply Forall_forall. intros y Hy. apply H; [now left|assumption].
Qed.
Lemma coords_sorted s : StronglySorted lex (coords s).
Proof.
  induction s as [|n s IH]; cbn; [repeat constructor|].
  assert (forall k, StronglySorted lex (map (cons k) (coords s))) as Hk.
  { intros k. induction IH as [|x l Hl IHl Hx]; cbn; [constructor|]. constructor; [assumption|].
    rewrite Forall_map. eapply Forall_impl; [|exact Hx]. cbn. auto. }
  generalize 0. induction n as [|n IHn]; intros k; cbn; [constructor|].
  apply sorted_app; [apply Hk|apply IHn|].
  intros x y Hx Hy. apply in_map_iff in Hx. destruct Hx as (x' & <- & _).
  apply in_flat_map in Hy. destruct Hy as (k' & Hk' & Hy). apply in_map_iff in Hy. destruct Hy as (y' & <- & _).
  apply in_seq in Hk'. cbn. left. lia.
Qed.
Lemma sorted_split {A} (R : A -> A -> Prop) l1 x l2 : StronglySorted R (l1 ++ x :: l2) -> forall y, In y l1 -> R y x.
Proof.
  induction l1 as [|z l1 IH]; intros H y Hy; [destruct Hy|]. cbn in H. inversion H as [|? ? H' Hz]; subst.
  destruct Hy as [<-|Hy]; [|now apply IH]. rewrite Forall_forall in Hz. apply Hz. apply in_app_iff. right. now left.
Qed.
Lemma find_rev {A} (R : A -> A -> Prop) (f : A -> bool) l : StronglySorted R l ->
  match List.find f (rev l) with
  | Some x => In x l /\ f x = true /\ forall y, In y l -> f y = true -> y = x \/ R y x
  | None => forall y, In y l -> f y = false
  end.
Proof.
  induction l as [|z l IH] using rev_ind; intros H; cbn; [intros y []|].
  rewrite rev_app_distr. cbn. destruct (f z) eqn:E.
  - split; [apply in_app_iff; right; now left|]. split; [assumption|]. intros y Hy _.
    apply in_app_iff in Hy. destruct Hy as [Hy|[<-|[]]]; [|now left]. right. eapply sorted_split; eauto.
  - assert (StronglySorted R l) as Hl.
    { clear - H. induction l as [|x l IH]; [constructor|]. cbn in H. inversion H as [|? ? H1 H2]; subst. constructor; [auto|].
      apply Forall_app in H2. apply H2. }
    specialize (IH Hl). destruct (List.find f (rev l)) as [x|].
    + destruct IH as (H1 & H2 & H3). split; [apply in_app_iff; now left|]. split; [assumption|].
      intros y Hy Hf. apply in_app_iff in Hy. destruct Hy as [Hy|[<-|[]]]; [auto|congruence].
    + intros y Hy. apply in_app_iff in Hy. destruct Hy as [Hy|[<-|[]]]; auto.
Qed.
Lemma last_from_spec rs so c :
  match last_from rs so c with
  | Some o => inside so o /\ source rs o = c /\ forall o', inside so o' -> source rs o' = c -> o' = o \/ lex o' o
  | None => forall o, inside so o -> source rs o <> c
  end.
Proof.
  unfold last_from. pose proof (find_rev lex (fun o => shape_eqb (source rs o) c) (coords so) (coords_sorted so)) as H.
  destruct (List.find _ _) as [o|].
  - destruct H as (H1 & H2 & H3). apply coords_In in H1. apply shape_eqb_eq in H2. split; [assumption|]. split; [assumption|].
    intros o' Ho' E. apply H3; [now apply coords_In|]. rewrite E. apply shape_eqb_refl.
  - intros o Ho E. specialize (H o). rewrite E, shape_eqb_refl in H. discriminate H. now apply coords_In.
Qed.
Lemma last_from_max rs so c o : inside so o -> source rs o = c ->
  (forall o', inside so o' -> source rs o' = c -> o' = o \/ lex o' o) -> last_from rs so c = Some o.
Proof.
  intros Ho E Hm. pose proof (last_from_spec rs so c) as H. destruct (last_from rs so c) as [o1|].
  - destruct H as (H1 & H2 & H3). destruct (Hm o1 H1 H2) as [<-|L1]; [reflexivity|].
    destruct (H3 o Ho E) as [<-|L2]; [reflexivity|]. destruct (lex_asym _ _ L1 L2).
  - now destruct (H o Ho).
Qed.
Lemma last_from_none rs so c : (forall o, inside so o -> source rs o <> c) -> last_from rs so c = None.
Proof.
  intros Hn. pose proof (last_from_spec rs so c) as H. destruct (last_from rs so c) as [o1|]; [|reflexivity].
  destruct H as (H1 & H2 & _). now destruct (Hn o1).
Qed.

(* ---- a sequence of assignments to arrays ---- *)
Section Visits.
Context {V : Type} (g : V -> V -> V).
Record visit : Type := { place : nat; v_rs : list rent; v_so : list nat; v_val : list nat -> V }.
Definition upd (w : visit) (a : nat) (c : list nat) (x : V) : V :=
  if Nat.eqb (place w) a then match last_from (v_rs w) (v_so w) c with Some o => g x (v_val w o) | None => x end else x.
Definition hit (w : visit) (a : nat) (c : list nat) : option (list nat) :=
  if Nat.eqb (place w) a then last_from (v_rs w) (v_so w) c else None.
Lemma upd_hit w a c x : upd w a c x = match hit w a c with Some o => g x (v_val w o) | None => x end.
Proof. unfold upd, hit. destruct (Nat.eqb _ _); reflexivity. Qed.
Definition singly (vis : list visit) (a : nat) : Prop :=
  forall k1 k2 w1 w2, nth_error vis k1 = Some w1 -> nth_error vis k2 = Some w2 -> place w1 = a -> place w2 = a -> k1 = k2.

Lemma fold_last a c x vis : (forall p q r, g (g p q) r = g p r) \/ singly vis a ->
  ((forall w, In w vis -> hit w a c = None) /\ fold_left (fun x w => upd w a c x) vis x = x) \/
  (exists k w o, nth_error vis k = Some w /\ hit w a c = Some o /\ fold_left (fun x w => upd w a c x) vis x = g x (v_val w o) /\
     forall k' w', k < k' -> nth_error vis k' = Some w' -> hit w' a c = None).
Proof.
  induction vis as [|w vis IH] using rev_ind; intros H.
  - left. split; [intros w []|reflexivity].
  - rewrite fold_left_app. cbn [fold_left]. rewrite upd_hit.
    assert ((forall p q r, g (g p q) r = g p r) \/ singly vis a) as H'.
    { destruct H as [H|H]; [now left|right]. intros k1 k2 w1 w2 E1 E2. apply H; rewrite nth_error_app1; auto; apply nth_error_Some; congruence. }
    assert (nth_error (vis ++ [w]) (length vis) = Some w) as Ew by (rewrite nth_error_app2, Nat.sub_diag by lia; reflexivity).
    destruct (IH H') as [[Hn E]|(k & w1 & o & E1 & E2 & E & Hl)]; clear IH; rewrite E.
    + destruct (hit w a c) as [o|] eqn:Eh.
      * right. exists (length vis), w, o. split; [exact Ew|]. split; [assumption|]. split; [reflexivity|].
        intros k' w' Hk' Hw'. assert (k' < length (vis ++ [w])) by (apply nth_error_Some; congruence). rewrite app_length in *. cbn in *. lia.
      * left. split; [|reflexivity]. intros w0 Hw0. apply in_app_iff in Hw0. destruct Hw0 as [Hw0|[<-|[]]]; auto.
    + assert (k < length vis) as Hk by (apply nth_error_Some; congruence).
      destruct (hit w a c) as [o2|] eqn:Eh.
      * right. exists (length vis), w, o2. split; [exact Ew|]. split; [assumption|]. split.
        -- destruct H as [H|H]; [apply H|]. exfalso.
           assert (k = length vis); [|lia]. apply (H k (length vis) w1 w).
           ++ rewrite nth_error_app1; assumption.
           ++ exact Ew.
           ++ unfold hit in E2. destruct (Nat.eqb_spec (place w1) a); [assumption|discriminate].
           ++ unfold hit in Eh. destruct (Nat.eqb_spec (place w) a); [assumption|discriminate].
        -- intros k' w' Hk' Hw'. assert (k' < length (vis ++ [w])) by (apply nth_error_Some; congruence). rewrite app_length in *. cbn in *. lia.
      * right. exists k, w1, o. split; [rewrite nth_error_app1; assumption|]. split; [assumption|]. split; [reflexivity|].
        intros k' w' Hk' Hw'. destruct (Nat.lt_ge_cases k' (length vis)).
        -- rewrite nth_error_app1 in Hw' by assumption. eauto.
        -- assert (k' < length (vis ++ [w])) by (apply nth_error_Some; congruence). rewrite app_length in *. cbn in *.
           assert (k' = length vis) as -> by lia. congruence.
Qed.

Lemma visits_equal a c' x vis rs so c (vb : list nat -> V) (emb : nat -> list nat -> list nat) :
  (forall o, inside so o -> source rs o = c -> exists k w o', nth_error vis k = Some w /\ place w = a /\ inside (v_so w) o' /\
     source (v_rs w) o' = c' /\ o = emb k o') ->
  (forall k w o', nth_error vis k = Some w -> place w = a -> inside (v_so w) o' -> source (v_rs w) o' = c' ->
     inside so (emb k o') /\ source rs (emb k o') = c /\ vb (emb k o') = v_val w o') ->
  (forall k w o1 o2, nth_error vis k = Some w -> inside (v_so w) o1 -> inside (v_so w) o2 -> lex o1 o2 -> lex (emb k o1) (emb k o2)) ->
  (forall k1 k2 w1 w2 o1 o2, k1 < k2 -> nth_error vis k1 = Some w1 -> nth_error vis k2 = Some w2 -> place w1 = a -> place w2 = a ->
     inside (v_so w1) o1 -> inside (v_so w2) o2 -> source (v_rs w1) o1 = c' -> source (v_rs w2) o2 = c' -> lex (emb k1 o1) (emb k2 o2)) ->
  (forall p q r, g (g p q) r = g p r) \/ singly vis a ->
  fold_left (fun x w => upd w a c' x) vis x = match last_from rs so c with Some o => g x (vb o) | None => x end.
Proof.
  intros HA HB HC HD HE. destruct (fold_last a c' x vis HE) as [[Hn ->]|(k & w & o & E1 & E2 & -> & Hl)].
  - rewrite last_from_none; [reflexivity|]. intros o Ho Es. destruct (HA o Ho Es) as (k & w & o' & H1 & H2 & H3 & H4 & _).
    specialize (Hn w (nth_error_In _ _ H1)). unfold hit in Hn. rewrite H2, Nat.eqb_refl in Hn.
    pose proof (last_from_spec (v_rs w) (v_so w) c') as Hs. rewrite Hn in Hs. now apply (Hs o').
  - assert (place w = a /\ last_from (v_rs w) (v_so w) c' = Some o) as [Ep El].
    { unfold hit in E2. destruct (Nat.eqb_spec (place w) a); [auto|discriminate]. }
    pose proof (last_from_spec (v_rs w) (v_so w) c') as Hs. rewrite El in Hs. destruct Hs as (Hi & Hsrc & Hmax).
    destruct (HB k w o E1 Ep Hi Hsrc) as (B1 & B2 & B3).
    rewrite (last_from_max rs so c (emb k o) B1 B2); [now rewrite B3|].
    intros o1 Ho1 Es1. destruct (HA o1 Ho1 Es1) as (k1 & w1 & o1' & H1 & H2 & H3 & H4 & ->).
    destruct (Nat.lt_trichotomy k1 k) as [L|[-> |L]].
    + right. eapply HD; eauto.
    + assert (w1 = w) as -> by congruence. destruct (Hmax o1' H3 H4) as [-> | L]; [now left|right]. eapply HC; eauto.
    + exfalso. specialize (Hl k1 w1 L H1). unfold hit in Hl. rewrite H2, Nat.eqb_refl in Hl.
      pose proof (last_from_spec (v_rs w1) (v_so w1) c') as Hs. rewrite Hl in Hs. now apply (Hs o1').
Qed.
End Visits.
Arguments visit V : clear implicits.
