(* Proofs for C33 and C34: which transformation is stored and applied. *)
From Verif Require Import BaseProofs TransformProofs TransformSetProofs TransformExProofs TransformSpec AlignSpec.
Local Open Scope nat_scope.

Lemma get_ok {A} (l : list A) k a : nth_error l k = Some a -> get l k = Ok a.
Proof. unfold get. now intros ->. Qed.
Lemma nth_some {A} (l : list A) k : k < length l -> exists a, nth_error l k = Some a.
Proof. intro H. destruct (nth_error l k) eqn:E; [eauto|]. apply nth_error_None in E. lia. Qed.
Lemma set_nth_same {A} (l : list A) k a : nth_error l k = Some a -> set_nth l k a = l.
Proof.
  revert k. induction l as [|b l IH]; intros [|k] H; cbn in *; try discriminate; [congruence|]. f_equal. now apply IH.
Qed.
Lemma Forall_set_nth {A} (P : A -> Prop) l k a : Forall P l -> P a -> Forall P (set_nth l k a).
Proof.
  intros Hl Ha. revert k. induction Hl as [|b l Hb Hl IH]; intros [|k]; cbn; constructor; auto.
Qed.
Lemma Forall_nth_error {A} (P : A -> Prop) l k a : Forall P l -> nth_error l k = Some a -> P a.
Proof. intros H E. rewrite Forall_forall in H. apply H. eapply nth_error_In, E. Qed.

(** ** Shapes *)
Lemma same_shape_refl s : same_shape s s.
Proof. now destruct s. Qed.
Lemma same_shape_sym s t : same_shape s t -> same_shape t s.
Proof. now destruct s, t. Qed.
Lemma same_shape_trans s t u : same_shape s t -> same_shape t u -> same_shape s u.
Proof. now destruct s, t, u. Qed.
Lemma same_shape_before s t u : same_shape u s -> same_shape u t -> same_shape u (before s t).
Proof. now destruct s, t, u. Qed.
Lemma same_shape_setidentity s : same_shape s (setidentity s).
Proof. now destruct s. Qed.
Lemma fromtransform_same s t : same_shape s t -> fromtransform s t = Ok t.
Proof. now destruct s, t. Qed.
Lemma translation_shape t : is_translation t <-> same_shape (Trn 0 0) t.
Proof. now destruct t. Qed.
(* the frame of a translation does not matter *)
Lemma new_frame_translation t C : is_translation t -> is_translation C -> new_frame_inplace t C = Ok t.
Proof.
  destruct t as [x y|], C as [p q|]; cbn [is_translation]; try tauto. intros _ _.
  cbn [new_frame_inplace inverse bind after before combine]. f_equal. f_equal; ring.
Qed.

Section Loop.
Context {I : Type}.
Variable apply : mapping -> I -> result I.
Variable kernel : I -> I -> mapping.
Variable prep : nat -> I -> I.
Variable before_transform : nat -> I -> I.
Variable after_transform : I -> I.
Variable raw : nat -> nat -> I.
Variable c : settings.
Local Notation n := (nimages c).
Local Notation pr := (fun i => prep i (raw (refdataset c) i)).

(** ** Writing with translations *)
Local Notation trn_state := (trn_state c).
Hypothesis apply_trn : forall x y im, exists im', apply (Trn x y) im = Ok im'.
Lemma apply_translation t im : is_translation t -> exists im', image_of apply t im im'.
Proof.
  intro H. destruct t as [x y|]; [|easy]. destruct (isidentity (Trn x y)) eqn:E.
  - exists im. left. now split.
  - destruct (apply_trn x y im) as [im' H']. exists im'. right. now split.
Qed.
Lemma execute_translation st i im t : trn_state st -> i < n -> nth_error (transfos st) i = Some t ->
  exists im', execute_transform apply st i im = Ok (im', st) /\ image_of apply t im im'.
Proof.
  intros (H1 & H2 & H3 & H4) Hi Ht. unfold execute_transform. rewrite (get_ok _ _ _ Ht). cbn [bind].
  destruct (nth_some (frames st) i) as [f Hf]; [lia|]. rewrite (get_ok _ _ _ Hf). cbn [bind].
  pose proof (Forall_nth_error _ _ _ _ H1 Ht) as Tt. pose proof (Forall_nth_error _ _ _ _ H2 Hf) as [_ Tf]. cbn beta in Tf.
  assert (E : (if isidentity (snd f) then Ok t else new_frame_inplace t (snd f)) = Ok t).
  { destruct (isidentity (snd f)); [reflexivity|]. now apply new_frame_translation. }
  rewrite E. cbn [bind]. unfold with_transfo. rewrite (set_nth_same _ _ _ Ht).
  assert (Es : St (transfos st) (frames st) = st) by now destruct st. rewrite Es.
  destruct (apply_translation t im Tt) as [im' [[A B]|[A B]]]; rewrite A.
  - exists im. split; [reflexivity|]. left. now split.
  - rewrite B. cbn [bind]. exists im'. split; [reflexivity|]. right. now split.
Qed.
Hypothesis flags : flags_right before_transform after_transform c.
(* the result of transformation t on image i of dataset j *)
Definition result_of (t : mapping) (j i : nat) (im : I) : Prop :=
  exists mid, image_of apply t (before_transform i (raw j i)) mid /\ im = after_transform mid.
Lemma pure_spec st i t : nth_error (transfos st) i = Some t ->
  pureidentity c st i = Ok (nopre c i && nopost c && isidentity t).
Proof.
  intro Ht. unfold pureidentity. rewrite (get_ok _ _ _ Ht). cbn [bind]. destruct (nopre c i && nopost c); reflexivity.
Qed.
Lemma pure_result t j i : nopre c i && nopost c && isidentity t = true -> result_of t j i (raw j i).
Proof.
  intro H. apply andb_true_iff in H as [H H3]. apply andb_true_iff in H as [H1 H2]. destruct flags as [F1 F2].
  exists (raw j i). split.
  - rewrite F1 by exact H1. left. now split.
  - now rewrite F2.
Qed.
Lemma transform_translation st i j t : trn_state st -> i < n -> nth_error (transfos st) i = Some t ->
  exists im, transform apply before_transform after_transform c st i (raw j i) = Ok (im, st) /\ result_of t j i im.
Proof.
  intros H Hi Ht. unfold transform. rewrite (pure_spec _ _ _ Ht). cbn [bind].
  destruct (nopre c i && nopost c && isidentity t) eqn:E.
  - exists (raw j i). split; [reflexivity|]. now apply pure_result.
  - destruct (execute_translation st i (before_transform i (raw j i)) t H Hi Ht) as (im' & A & B).
    rewrite A. cbn [bind]. exists (after_transform im'). split; [reflexivity|]. exists im'. now split.
Qed.
(* the aligned image may be used when the reference dataset is written *)
Definition aligned_usable (ty : aligntype) (t : mapping) (i : nat) (aligned : I) : Prop :=
  ty = UseTransfo \/ has_roi c = true \/ nopre c i = false \/ nopost c = false \/ result_of t (refdataset c) i aligned.
Lemma write_datasets_translation ty st i aligned t js : trn_state st -> i < n -> nth_error (transfos st) i = Some t ->
  aligned_usable ty t i aligned ->
  exists out, write_datasets apply before_transform after_transform raw c ty st i aligned js = Ok (st, out)
    /\ map fst out = map (fun j => (j, i)) js
    /\ forall j i' im, In (j, i', im) out -> i' = i /\ result_of t j i im.
Proof.
  intros H Hi Ht Ha. induction js as [|j js IH].
  - exists []. cbn. split; [reflexivity|]. split; [reflexivity|]. intros ? ? ? [].
  - destruct IH as (out & A & B & C). cbn [write_datasets].
    set (use := _ && nopost c).
    assert (S1 : exists im, (if use then Ok (aligned, st) else transform apply before_transform after_transform c st i (raw j i)) = Ok (im, st)
        /\ result_of t j i im).
    { destruct use eqn:E; [|now apply transform_translation].
      exists aligned. split; [reflexivity|]. unfold use in E.
      apply andb_true_iff in E as [E E5]. apply andb_true_iff in E as [E E4]. apply andb_true_iff in E as [E E3].
      apply andb_true_iff in E as [E1 E2]. apply Nat.eqb_eq in E2. subst j. apply negb_true_iff in E3.
      destruct Ha as [->|[Ha|[Ha|[Ha|Ha]]]]; [discriminate|congruence|congruence|congruence|exact Ha]. }
    destruct S1 as (im & S1 & S2). rewrite S1. cbn [bind]. rewrite A. cbn [bind].
    exists ((j, i, im) :: out). split; [reflexivity|]. split; [cbn [map fst]; now rewrite B|].
    intros j' i' im' [E|E]; [|now apply C]. injection E as <- <- <-. now split.
Qed.
Lemma write_image_translation ty st i aligned t : trn_state st -> i < n -> nth_error (transfos st) i = Some t ->
  aligned_usable ty t i aligned ->
  exists out, write_image apply before_transform after_transform raw c ty st i aligned = Ok (st, out)
    /\ map fst out = map (fun j => (j, i)) (seq 0 (nsets c))
    /\ forall j i' im, In (j, i', im) out -> i' = i /\ result_of t j i im.
Proof.
  intros H Hi Ht Ha. unfold write_image. rewrite (pure_spec _ _ _ Ht). cbn [bind].
  destruct (nopre c i && nopost c && isidentity t) eqn:E; [|now apply write_datasets_translation].
  eexists. split; [reflexivity|]. split; [now rewrite map_map|].
  intros j i' im Hin. apply in_map_iff in Hin as (j' & Ej & _). injection Ej as -> <- <-. split; [reflexivity|].
  now apply pure_result.
Qed.
(* the loop that only applies *)
Lemma use_loop st fixed iref m a : trn_state st -> a + m <= n ->
  exists out, align_loop apply kernel prep before_transform after_transform raw c UseTransfo st fixed iref (seq a m) = Ok (st, out)
    /\ map fst out = flat_map (fun i => map (fun j => (j, i)) (seq 0 (nsets c))) (seq a m)
    /\ forall j i im, In (j, i, im) out -> exists t, nth_error (transfos st) i = Some t /\ result_of t j i im.
Proof.
  intro H. revert a. induction m as [|m IH]; intros a Ha.
  - exists []. cbn. split; [reflexivity|]. split; [reflexivity|]. intros ? ? ? [].
  - cbn [seq align_loop]. destruct (nth_some (transfos st) a) as [t Ht]; [destruct H as (_ & _ & H & _); lia|].
    destruct (write_image_translation UseTransfo st a fixed t H ltac:(lia) Ht) as (o1 & A1 & B1 & C1); [now left|].
    destruct (IH (S a) ltac:(lia)) as (o2 & A2 & B2 & C2).
    rewrite A1. cbn [bind]. rewrite A2. cbn [bind]. exists (o1 ++ o2). split; [reflexivity|].
    split; [etransitivity; [apply map_app|]; cbn [flat_map]; exact (f_equal2 (@app _) B1 B2)|].
    intros j i im Hin. apply in_app_or in Hin as [Hin|Hin]; [|now apply C2].
    apply C1 in Hin as [-> Hin]. exists t. now split.
Qed.
Lemma use_translations st : trn_state st ->
  exists out, doalign apply kernel prep before_transform after_transform raw c UseTransfo st = Ok (st, out)
    /\ transformed_alike apply before_transform after_transform raw c (transfos st) out.
Proof.
  intro H. destruct (use_loop st (prep (match refimage c with None => 0 | Some r => r end) (raw (refdataset c) (match refimage c with None => 0 | Some r => r end)))
    (match refimage c with None => 0 | Some r => r end) n 0 H ltac:(lia)) as (out & A & B & C).
  exists out. split; [exact A|]. split; [exact B|].
  intros j i im Hin. destruct (C j i im Hin) as (t & Ht & mid & E1 & E2). exists t, mid. auto.
Qed.
End Loop.
