(* Examples and counterexamples for C32, C33 and C34. *)
From Verif Require Import BaseProofs TransformProofs TransformSetProofs TransformExProofs TransformSpec AlignSpec AlignProofs AlignCalcProofs AlignPadProofs AlignTopProofs.
Local Open Scope nat_scope.

Lemma feature_apply_trn x y im : exists im', feature_apply (Trn x y) im = Ok im'.
Proof. eexists. reflexivity. Qed.
Lemma feature_kernel_trn fixed moving : is_translation (feature_kernel fixed moving).
Proof. exact Logic.I. Qed.
(* the outcome of a list of writes, to compare values *)
Definition outcome (r : result (state * list (written (I:=feature)))) : option (list mapping * list (written (I:=feature))) :=
  match r with Ok (st, out) => Some (transfos st, out) | Err _ => None end.
Definition feature_eqb (p q : feature) : bool := Qc_eqb (fst p) (fst q) && Qc_eqb (snd p) (snd q).
Lemma feature_eqb_spec p q : feature_eqb p q = true <-> p = q.
Proof.
  destruct p, q. unfold feature_eqb. cbn [fst snd]. rewrite andb_true_iff, !Qc_eqb_spec. split; [now intros [-> ->]|].
  intro H. split; congruence.
Qed.
Definition written_at (out : list (written (I:=feature))) (j i : nat) : option feature :=
  option_map snd (find (fun w => (fst (fst w) =? j) && (snd (fst w) =? i)) out).
Lemma written_at_In out j i im : written_at out j i = Some im -> In (j, i, im) out.
Proof.
  unfold written_at. destruct (find (fun w => (fst (fst w) =? j) && (snd (fst w) =? i)) out) as [[[j' i'] im']|] eqn:E; [|discriminate]. cbn. intro H. injection H as ->.
  apply find_some in E as [E1 E2]. cbn [fst snd] in E2. apply andb_true_iff in E2 as [E2 E3].
  apply Nat.eqb_eq in E2, E3. now subst.
Qed.
(* does image i of dataset j differ from what the stored transformation gives *)
Definition differs (r : result (state * list (written (I:=feature)))) (j i : nat) (im : feature) : bool :=
  match r with
  | Ok (st, out) =>
      match nth_error (transfos st) i, written_at out j i with
      | Some (Trn x y), Some p => negb (feature_eqb p (fst im - x, snd im - y)%Qc)
      | _, _ => false
      end
  | Err _ => false
  end.
Lemma image_of_feature x y im im' : image_of feature_apply (Trn x y) im im' -> im' = (fst im - x, snd im - y)%Qc.
Proof.
  intros [[A ->]|[A B]].
  - cbn [isidentity] in A. apply andb_true_iff in A as [A1 A2]. apply Qc_eqb_spec in A1, A2. subst. destruct im. cbn [fst snd].
    f_equal; ring.
  - cbn [feature_apply] in B. now injection B as <-.
Qed.
Lemma differs_spec r raw c j i : differs r j i (raw j i) = true ->
  exists st out, r = Ok (st, out) /\ ~ transformed_alike feature_apply (fun _ im => im) (fun im => im) raw c (transfos st) out.
Proof.
  unfold differs. destruct r as [[st out]|]; [|discriminate]. destruct (nth_error (transfos st) i) as [[x y|]|] eqn:Et; try discriminate.
  destruct (written_at out j i) as [p|] eqn:Ew; [|discriminate]. intro H. exists st, out. split; [reflexivity|].
  intros [_ A]. apply written_at_In in Ew. destruct (A j i p Ew) as (t & mid & E1 & E2 & E3). rewrite Et in E1. injection E1 as <-.
  apply image_of_feature in E2. subst p mid. apply negb_true_iff in H.
  rewrite (proj2 (feature_eqb_spec _ _) eq_refl) in H. discriminate.
Qed.
(* pairwise alignment on the raw images without padding or cropping *)
Lemma onraw_not_alike : exists st out, ex_align true = Ok (st, out) /\
  ~ transformed_alike feature_apply (fun _ im => im) (fun im => im) drift (ex_pairwise true) (transfos st) out.
Proof. apply (differs_spec (ex_align true) drift (ex_pairwise true) 0 2). vm_compute. reflexivity. Qed.
Lemma onraw_values : match outcome (ex_align true) with
  | Some (_, out) => written_at out 0 2 = Some (1, 0)%Qc /\ written_at out 1 2 = Some (0, 1)%Qc
  | None => False end.
Proof. vm_compute. split; (apply f_equal, f_equal2; apply Qc_is_canon; reflexivity). Qed.

Lemma m33_neq (k : mkind) m k' m' : eqb33 m m' = false -> Lin k m <> Lin k' m'.
Proof.
  intros H E. injection E as _ ->. assert (T : eqb33 m' m' = true); [|congruence].
  unfold eqb33. rewrite !(proj2 (Qc_eqb_spec _ _) eq_refl). reflexivity.
Qed.
(* the second execution of the same stored transformation applies another one *)
Definition last_matrix (r : result (list mapping * state)) : option m33 :=
  match r with Ok ([Lin _ m], _) => Some m | _ => None end.
Definition twice : option (m33 * m33) :=
  match ex_execute ex_rigid_state with
  | Ok (im1, st1) =>
      match last_matrix (Ok (im1, st1)), last_matrix (ex_execute st1) with
      | Some m1, Some m2 => Some (m1, m2)
      | _, _ => None
      end
  | Err _ => None
  end.
Lemma executed_twice : exists im1 st1 im2 st2,
  ex_execute ex_rigid_state = Ok (im1, st1) /\ ex_execute st1 = Ok (im2, st2) /\ im1 <> im2.
Proof.
  assert (H : match twice with Some (m1, m2) => negb (eqb33 m1 m2) | None => false end = true) by (vm_compute; reflexivity).
  unfold twice in H. destruct (ex_execute ex_rigid_state) as [[im1 st1]|]; [|discriminate].
  destruct im1 as [|[|k1 m1] [|]]; try discriminate. cbn [last_matrix] in H.
  destruct (ex_execute st1) as [[im2 st2]|] eqn:E2; [|discriminate].
  destruct im2 as [|[|k2 m2] [|]]; try discriminate. cbn [last_matrix] in H.
  exists [Lin k1 m1], st1, [Lin k2 m2], st2. split; [reflexivity|]. split; [exact E2|].
  apply negb_true_iff in H. intro E. injection E as E'. exact (m33_neq k1 m1 k2 m2 H ltac:(congruence)).
Qed.

(* the frame of a region that starts at column 2 and row 1 *)
Lemma roi_frame : forall r, calccof_prealign_to_raw ex_roi (Trn 0 0, Trn 0 0) (Trn 0 0) = Ok r ->
  fst r <> Trn (- Qc_of_Z 2)%Qc (- Qc_of_Z 1)%Qc.
Proof.
  intros r H. unfold calccof_prealign_to_raw, ex_roi in H. cbn [fst snd fromtransform bind] in H.
  assert (E : isidentity (Trn 0 0) = true) by (vm_compute; reflexivity). rewrite E in H. cbn [bind] in H.
  apply ok_inj in H. subst r. cbn [fst]. intro F. injection F as F1.
  discriminate F1.
Qed.

(* the feature that turns and moves: the stored transformation does not lead to it *)
Lemma quarter_order : exists st, ex_rigid_calc = Ok (st, []) /\
  (forall k, S k < 3 -> old_point (ex_kernels (S k)) (ex_positions k) = Some (ex_positions (S k))) /\
  exists t, nth_error (transfos st) 2 = Some t /\ old_point t (ex_positions 0) <> Some (ex_positions 2).
Proof.
  assert (H : match ex_rigid_calc with
              | Ok (st, []) => match nth_error (transfos st) 2 with
                               | Some t => match old_point t (ex_positions 0) with
                                           | Some p => negb (feature_eqb p (ex_positions 2)) | None => false end
                               | None => false end
              | _ => false end = true) by (vm_compute; reflexivity).
  destruct ex_rigid_calc as [[st [|]]|]; try discriminate. exists st. split; [reflexivity|]. split.
  - intros [|[|k]] Hk; [apply opt_pair_eq; vm_compute; reflexivity..|lia].
  - destruct (nth_error (transfos st) 2) as [t|]; [|discriminate]. exists t. split; [reflexivity|].
    destruct (old_point t (ex_positions 0)) as [p|]; [|discriminate]. apply negb_true_iff in H. intro E. injection E as ->.
    rewrite (proj2 (feature_eqb_spec _ _) eq_refl) in H. discriminate.
Qed.
