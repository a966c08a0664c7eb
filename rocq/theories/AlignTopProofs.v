(* Proofs for C33 and C34: what align does for all datasets. *)
From Verif Require Import BaseProofs TransformProofs TransformSetProofs TransformExProofs TransformSpec AlignSpec AlignProofs AlignCalcProofs.
Local Open Scope nat_scope.

Section Top.
Context {I : Type}.
Variable apply : mapping -> I -> result I.
Variable kernel : I -> I -> mapping.
Variable prep : nat -> I -> I.
Variable before_transform : nat -> I -> I.
Variable after_transform : I -> I.
Variable raw : nat -> nat -> I.
Variable c : settings.
Local Notation n := (nimages c).
Local Notation pr := (fun i => prep i (raw (refdataset c) i)).
Local Notation doal := (doalign apply kernel prep before_transform after_transform raw c).

(** ** Only calculating: every kind of transformation *)
Lemma calc_run u st :
  (forall fixed moving, same_shape u (kernel fixed moving) /\ exists im', image_of apply (kernel fixed moving) moving im') ->
  shaped c u st ->
  let r := match refimage c with None => 0 | Some r => r end in
  exists st', doal CalcTransfo st = Ok (st', []) /\ shaped c u st' /\ frames st' = frames st
    /\ length (transfos st') = length (transfos st)
    /\ run apply kernel prep raw c (fun _ _ o => o = []) (transfos st') 0 (pr r) r n [].
Proof.
  intros Hk Hs r.
  destruct (doalign_run apply kernel prep before_transform after_transform raw c u Hk CalcTransfo ltac:(discriminate)
    (frames st) (fun _ _ o => o = [])) with (st := st) as (st' & out & A & B & C & D & E); [|exact Hs|reflexivity|].
  - intros s p i fixed iref t al H1 H2 H3 H4 H5. exists []. now split.
  - assert (out = []) as ->; [|exists st'; auto].
    destruct out as [|w out]; [reflexivity|].
    destruct (run_in apply kernel prep raw c _ _ _ _ _ _ _ E w (or_introl eq_refl)) as (k & t & o & _ & _ & -> & []).
Qed.
Lemma calc_fixed u st r :
  (forall fixed moving, same_shape u (kernel fixed moving) /\ exists im', image_of apply (kernel fixed moving) moving im') ->
  shaped c u st -> refimage c = Some r ->
  exists st', doal CalcTransfo st = Ok (st', []) /\
  forall k, k < n -> exists t, nth_error (transfos st') k = Some t
    /\ (k = r -> isidentity t = true) /\ (k <> r -> t = kernel (pr r) (pr k)).
Proof.
  intros Hk Hs Hr. destruct (calc_run u st Hk Hs) as (st' & A & _ & _ & _ & E). rewrite Hr in E.
  exists st'. split; [exact A|]. intros k Hkn. eapply (run_fixed apply kernel prep raw c); [exact Hr|exact E|lia].
Qed.
Lemma calc_pairwise u st :
  (forall fixed moving, same_shape u (kernel fixed moving) /\ exists im', image_of apply (kernel fixed moving) moving im') ->
  shaped c u st -> refimage c = None -> alignonraw c = true ->
  exists st', doal CalcTransfo st = Ok (st', []) /\
  forall k, k < n -> exists t, nth_error (transfos st') k = Some t
    /\ (k = 0 -> isidentity t = true)
    /\ (k <> 0 -> exists q, nth_error (transfos st') (k - 1) = Some q /\ t = before q (kernel (pr (k - 1)) (pr k))).
Proof.
  intros Hk Hs Hr Ho. destruct (calc_run u st Hk Hs) as (st' & A & _ & _ & _ & E). rewrite Hr in E.
  exists st'. split; [exact A|]. intros k Hkn. eapply (run_pairwise apply kernel prep raw c _ _ n 0); [exact Hr|exact Ho|exact E|lia].
Qed.

(** ** Translations *)
Hypothesis apply_trn : forall x y im, exists im', apply (Trn x y) im = Ok im'.
Hypothesis kernel_trn : forall fixed moving, is_translation (kernel fixed moving).
Hypothesis flags : flags_right before_transform after_transform c.
Lemma kernel_trn_ok fixed moving : same_shape (Trn 0 0) (kernel fixed moving)
  /\ exists im', image_of apply (kernel fixed moving) moving im'.
Proof. split; [apply translation_shape, kernel_trn|]. apply apply_translation; [exact apply_trn|apply kernel_trn]. Qed.
Definition trn_frames (fr : list (mapping * mapping)) : Prop :=
  Forall (fun f => is_translation (fst f) /\ is_translation (snd f)) fr /\ n <= length fr.
Lemma trn_state_iff st : trn_state c st <-> shaped c (Trn 0 0) st /\ trn_frames (frames st).
Proof.
  unfold trn_state, shaped, trn_frames. split.
  - intros (A & B & C & D). split; [|now split]. split; [|exact C]. eapply Forall_impl; [|exact A]. intros t Ht. now apply translation_shape.
  - intros [[A C] [B D]]. split; [|now split]. eapply Forall_impl; [|exact A]. intros t Ht. now apply translation_shape.
Qed.
Lemma write_same ty st i aligned js t : trn_state c st -> i < n -> nth_error (transfos st) i = Some t ->
  exists out, write_datasets apply before_transform after_transform raw c ty st i aligned js = Ok (st, out).
Proof.
  intros H Hi Ht. induction js as [|j js [out IH]]; [now exists []|]. cbn [write_datasets].
  set (use := _ && nopost c).
  assert (S1 : exists im, (if use then Ok (aligned, st) else transform apply before_transform after_transform c st i (raw j i)) = Ok (im, st)).
  { destruct use; [now exists aligned|].
    destruct (transform_translation apply kernel prep before_transform after_transform raw c apply_trn flags st i j t H Hi Ht) as (im & A & _).
    now exists im. }
  destruct S1 as [im S1]. rewrite S1. cbn [bind]. rewrite IH. cbn [bind]. eauto.
Qed.
(* also when the images are written *)
Lemma full_run st : trn_state c st ->
  let r := match refimage c with None => 0 | Some r => r end in
  exists st' out, doal Full st = Ok (st', out) /\ trn_state c st'
    /\ run apply kernel prep raw c (fun _ _ _ => True) (transfos st') 0 (pr r) r n out.
Proof.
  intros H r. apply trn_state_iff in H as [Hs Hf].
  destruct (doalign_run apply kernel prep before_transform after_transform raw c (Trn 0 0) kernel_trn_ok Full ltac:(discriminate)
    (frames st) (fun _ _ _ => True)) with (st := st) as (st' & out & A & B & C & D & E); [|exact Hs|reflexivity|].
  - intros s p i fixed iref t al H1 H2 H3 H4 H5.
    assert (Ht : trn_state c s) by (apply trn_state_iff; split; [exact H1|now rewrite H2]).
    unfold writes, write_image. rewrite (pure_spec c _ _ _ H4). cbn [bind].
    destruct (nopre c i && nopost c && isidentity t); [eauto|].
    destruct (write_same Full s i al (seq 0 (nsets c)) t Ht H3 H4) as [out E]. eauto.
  - exists st', out. split; [exact A|]. split; [|exact E]. apply trn_state_iff. split; [exact B|now rewrite C].
Qed.
Lemma translation_before q t p p' : is_translation q -> is_translation t ->
  old_point q p' = Some p -> forall p'', old_point t p = Some p'' -> old_point (before q t) p' = Some p''.
Proof.
  destruct q as [a b|], t as [d e|]; try easy. intros _ _ H p'' H'. destruct p as [x y], p' as [x' y'], p'' as [x'' y''].
  cbn [old_point before combine] in *. assert (H1 : x = (x' + a)%Qc) by congruence. assert (H2 : y = (y' + b)%Qc) by congruence. subst x y. clear H.
  rewrite <- H'. do 2 f_equal; ring.
Qed.
Lemma identity_translation_point t p : is_translation t -> isidentity t = true -> old_point t p = Some p.
Proof.
  destruct t as [a b|]; [|easy]. intros _ H. cbn [isidentity] in H. apply andb_true_iff in H as [H1 H2].
  apply Qc_eqb_spec in H1, H2. subst. destruct p as [x y]. cbn [old_point]. do 2 f_equal; ring.
Qed.
Lemma chain_points ts (P : nat -> Qc * Qc) :
  (forall k, k < n -> exists t, nth_error ts k = Some t
    /\ (k = 0 -> isidentity t = true)
    /\ (k <> 0 -> exists q, nth_error ts (k - 1) = Some q /\ t = before q (kernel (pr (k - 1)) (pr k)))) ->
  Forall is_translation ts ->
  (forall k, S k < n -> old_point (kernel (pr k) (pr (S k))) (P k) = Some (P (S k))) ->
  forall k, k < n -> exists t, nth_error ts k = Some t /\ old_point t (P 0) = Some (P k).
Proof.
  intros Hc Ht HP k. induction k as [|k IH]; intro Hk.
  - destruct (Hc 0 Hk) as (t & E & A & _). exists t. split; [exact E|].
    apply identity_translation_point; [exact (Forall_nth_error _ _ _ _ Ht E)|now apply A].
  - destruct (Hc (S k) Hk) as (t & E & _ & B). destruct (B ltac:(discriminate)) as (q & Eq & ->).
    replace (S k - 1) with k in * by lia. destruct (IH ltac:(lia)) as (q' & Eq' & Hq). rewrite Eq in Eq'. injection Eq' as <-.
    eexists. split; [exact E|]. eapply translation_before; [exact (Forall_nth_error _ _ _ _ Ht Eq)|apply kernel_trn|exact Hq|].
    now apply HP.
Qed.
Lemma pairwise_points ty st (P : nat -> Qc * Qc) : ty <> UseTransfo -> trn_state c st -> refimage c = None -> alignonraw c = true ->
  (forall k, S k < n -> old_point (kernel (pr k) (pr (S k))) (P k) = Some (P (S k))) ->
  exists st' out, doal ty st = Ok (st', out) /\
  forall k, k < n -> exists t, nth_error (transfos st') k = Some t /\ old_point t (P 0) = Some (P k).
Proof.
  intros Hty H Hr Ho HP.
  assert (G : exists st' out R, doal ty st = Ok (st', out) /\ trn_state c st'
    /\ run apply kernel prep raw c R (transfos st') 0 (pr 0) 0 n out).
  { destruct ty; [|contradiction|].
    - destruct (full_run st H) as (st' & out & A & B & C). rewrite Hr in C. eauto 6.
    - pose proof H as H'. apply trn_state_iff in H' as [Hs Hf].
      destruct (calc_run (Trn 0 0) st kernel_trn_ok Hs) as (st' & A & B & C & D & E). rewrite Hr in E.
      exists st', [], (fun _ _ o => o = []). split; [exact A|]. split; [|exact E]. apply trn_state_iff. split; [exact B|now rewrite C]. }
  destruct G as (st' & out & R & A & B & E). exists st', out. split; [exact A|].
  apply chain_points; [|exact (proj1 B)|exact HP].
  intros k Hk. eapply (run_pairwise apply kernel prep raw c _ _ n 0); [exact Hr|exact Ho|exact E|lia].
Qed.

(** ** align *)
Lemma calccof_translation roi old pre : is_translation (fst old) -> is_translation (snd old) -> is_translation pre ->
  exists new, calccof_prealign_to_raw roi old pre = Ok new /\ is_translation (fst new) /\ is_translation (snd new).
Proof.
  intros H1 H2 H3. unfold calccof_prealign_to_raw.
  set (C := match roi with Some _ => _ | None => _ end).
  assert (HC : is_translation C) by (unfold C; destruct roi as [[[? ?] ?]|]; exact Logic.I).
  rewrite fromtransform_same by (destruct (fst old), C; easy). cbn [bind].
  assert (G : exists q, (if isidentity pre then Ok C else let! i := inverse pre in Ok (before C i)) = Ok q /\ is_translation q).
  { destruct (isidentity pre); [now exists C|]. destruct pre; [|easy]. destruct C; [|easy]. cbn [inverse bind before combine]. eexists. split; [reflexivity|exact Logic.I]. }
  destruct G as (q & G1 & G2). rewrite G1. cbn [bind]. rewrite fromtransform_same by (destruct (snd old), q; easy). cbn [bind].
  eexists. split; [reflexivity|]. now split.
Qed.
Lemma mapM_exists {A B} (f : A -> result B) (P : B -> Prop) l : Forall (fun a => exists b, f a = Ok b /\ P b) l ->
  exists bs, mapM f l = Ok bs /\ Forall P bs /\ length bs = length l.
Proof.
  induction 1 as [|a l (b & E & Hb) _ (bs & IH & F & L)]; [exists []; auto|].
  exists (b :: bs). cbn [mapM]. rewrite E. cbn [bind]. rewrite IH. cbn [bind length].
  split; [reflexivity|]. split; [now constructor|now rewrite L].
Qed.
Lemma prepare_translations roi pres st : trn_state c st -> Forall is_translation pres ->
  exists st', prepare_pre_align roi pres st = Ok st' /\ trn_state c st' /\ transfos st' = transfos st.
Proof.
  intros (H1 & H2 & H3 & H4) Hp. unfold prepare_pre_align.
  destruct (mapM_exists (fun fp : (mapping * mapping) * mapping => calccof_prealign_to_raw roi (fst fp) (snd fp))
    (fun f => is_translation (fst f) /\ is_translation (snd f)) (List.combine (frames st) pres)) as (fs & A & B & L).
  { apply Forall_forall. intros [f p] Hin. pose proof (in_combine_l _ _ _ _ Hin) as Hl. pose proof (in_combine_r _ _ _ _ Hin) as Hr.
    rewrite Forall_forall in H2, Hp. destruct (H2 f Hl) as [F1 F2]. apply calccof_translation; [exact F1|exact F2|now apply Hp]. }
  rewrite A. cbn [bind]. eexists. split; [reflexivity|]. split; [|reflexivity].
  split; [exact H1|]. cbn [frames]. split.
  - apply Forall_app. split; [exact B|]. rewrite <- (firstn_skipn (length pres) (frames st)) in H2. now apply Forall_app in H2.
  - split; [exact H3|]. rewrite app_length, skipn_length, L, combine_length. lia.
Qed.
Lemma parse_translations center st : trn_state c st ->
  exists st', parsetransformation_beforeapplication center st = Ok st' /\ trn_state c st'.
Proof.
  intros (H1 & H2 & H3 & H4). unfold parsetransformation_beforeapplication.
  destruct (mapM_exists calccof_prealign_to_pretransform (fun f => is_translation (fst f) /\ is_translation (snd f)) (frames st)) as (fs & A & B & L).
  { eapply Forall_impl; [|exact H2]. intros [f g] [F1 F2]. cbn [fst snd] in *. unfold calccof_prealign_to_pretransform. cbn [fst snd].
    rewrite fromtransform_same by (destruct f, g; easy). cbn [bind]. eexists. split; [reflexivity|]. now split. }
  cbn zeta. rewrite A. cbn [bind]. eexists. split; [reflexivity|]. split; cbn [transfos frames].
  - destruct center as [[x y]|]; [|exact H1]. apply Forall_map. eapply Forall_impl; [|exact H1]. intros t Ht. destruct t; easy.
  - split; [exact B|]. split; [|lia]. destruct center as [[x y]|]; [now rewrite map_length|exact H3].
Qed.
Lemma align_twopass roi pres center st : trn_state c st -> Forall is_translation pres ->
  exists st' out, align apply kernel prep before_transform after_transform raw c true roi pres center st = Ok (st', out)
    /\ transformed_alike apply before_transform after_transform raw c (transfos st') out
    /\ doal UseTransfo st' = Ok (st', out).
Proof.
  intros H Hp. unfold align. destruct (prepare_translations roi pres st H Hp) as (s1 & A1 & B1 & _). rewrite A1. cbn [bind].
  pose proof B1 as B1'. apply trn_state_iff in B1' as [Hs Hf].
  destruct (calc_run (Trn 0 0) s1 kernel_trn_ok Hs) as (s2 & A2 & B2 & C2 & _). rewrite A2. cbn [bind].
  assert (T2 : trn_state c s2) by (apply trn_state_iff; split; [exact B2|now rewrite C2]).
  destruct (parse_translations center s2 T2) as (s3 & A3 & B3). rewrite A3. cbn [bind].
  destruct (use_translations apply kernel prep before_transform after_transform raw c apply_trn flags s3 B3) as (out & A4 & B4).
  exists s3, out. auto.
Qed.
Lemma align_onepass st pres : trn_state c st -> Forall is_translation pres ->
  (forall i im, prep i im = im) -> (forall i im, before_transform i im = im) -> (forall im, after_transform im = im) ->
  (refimage c <> None \/ alignonraw c = false) ->
  exists st' out, align apply kernel prep before_transform after_transform raw c false None pres None st = Ok (st', out)
    /\ transformed_alike apply before_transform after_transform raw c (transfos st') out.
Proof.
  intros H Hp P1 P2 P3 Hm. unfold align. destruct (prepare_translations None pres st H Hp) as (s1 & A1 & B1 & _). rewrite A1. cbn [bind].
  pose proof B1 as B1'. apply trn_state_iff in B1' as [Hs Hf].
  set (R := fun i t (out : list (written (I:=I))) => map fst out = map (fun j => (j, i)) (seq 0 (nsets c))
    /\ forall j i' im, In (j, i', im) out -> i' = i /\ result_of apply before_transform after_transform raw t j i im).
  destruct (doalign_run apply kernel prep before_transform after_transform raw c (Trn 0 0) kernel_trn_ok Full ltac:(discriminate)
    (frames s1) R) with (st := s1) as (st' & out & A & B & C & D & E); [|exact Hs|reflexivity|].
  - intros s p i fixed iref t al H1 H2 H3 H4 H5.
    assert (Ht : trn_state c s) by (apply trn_state_iff; split; [exact H1|now rewrite H2]).
    unfold writes. apply write_image_translation; [exact kernel|exact prep|exact apply_trn|exact flags|exact Ht|exact H3|exact H4|].
    right. right. right. right. destruct H5 as [F1 F2]. unfold result_of. exists al. rewrite P2, P3. split; [|reflexivity].
    destruct (Nat.eq_dec i iref) as [Ei|Ei].
    + destruct (F1 Ei) as [G1 G2]. left. split; [exact G1|]. now rewrite G2, P1.
    + destruct (F2 Ei) as [G1 G2]. assert (Ea : accumulates c i = false).
      { unfold accumulates. destruct Hm as [Hm|Hm]; [destruct (refimage c); [reflexivity|contradiction]|].
        rewrite Hm. now rewrite andb_false_r. }
      rewrite Ea in G2. subst t. rewrite !P1 in *. exact G1.
  - exists st', out. split; [exact A|]. split.
    + eapply (run_out apply kernel prep raw c R); [exact E|]. intros k t o Ho. exact (proj1 Ho).
    + intros j i im Hin. destruct (run_in apply kernel prep raw c R _ _ _ _ _ _ E _ Hin) as (k & t & o & _ & Ht & Ho & Hin').
      destruct (proj2 Ho j i im Hin') as [-> (mid & M1 & M2)]. exists t, mid. auto.
Qed.
End Top.

(* align never succeeds for another kind than translations *)
Lemma prepare_other_kinds k m n roi pres : pres <> [] ->
  prepare_pre_align roi pres (new_state (Lin k m) (S n)) = Err ValueError.
Proof.
  intro H. destruct pres as [|p pres]; [contradiction|]. unfold prepare_pre_align, new_state. cbn [frames repeat List.combine mapM].
  cbn [fst snd]. unfold calccof_prealign_to_raw at 1. destruct roi as [[[? ?] ?]|]; reflexivity.
Qed.
Lemma align_other_kinds {I} (apply : mapping -> I -> result I) kernel prep bt at_ raw c twopass k m n roi pres center : pres <> [] ->
  align apply kernel prep bt at_ raw c twopass roi pres center (new_state (Lin k m) (S n)) = Err ValueError.
Proof. intro H. unfold align. rewrite prepare_other_kinds by exact H. reflexivity. Qed.
