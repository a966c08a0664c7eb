(* Proofs for C33 and C34: the loop that calculates the transformations. *)
From Verif Require Import BaseProofs TransformProofs TransformSetProofs TransformExProofs TransformSpec AlignSpec AlignProofs.
Local Open Scope nat_scope.

Lemma isidentity_setidentity s : isidentity (setidentity s) = true.
Proof. destruct s; vm_compute; reflexivity. Qed.

Section Calc.
Context {I : Type}.
Variable apply : mapping -> I -> result I.
Variable kernel : I -> I -> mapping.
Variable prep : nat -> I -> I.
Variable before_transform : nat -> I -> I.
Variable after_transform : I -> I.
Variable raw : nat -> nat -> I.
Variable c : settings.
Variable u : mapping.
Local Notation n := (nimages c).
Local Notation pr := (fun i => prep i (raw (refdataset c) i)).
Local Notation shaped := (shaped c u).
Hypothesis kernel_ok : forall fixed moving, same_shape u (kernel fixed moving)
  /\ exists im', image_of apply (kernel fixed moving) moving im'.
Definition accumulates (i : nat) : bool :=
  match refimage c with None => true | Some _ => false end && negb (i =? 0) && alignonraw c.
(* t is stored for image i that is aligned on image iref, which is fixed; al is the aligned
   image and p the previous transformation *)
Definition step_fact (p : option mapping) (i : nat) (fixed : I) (iref : nat) (t : mapping) (al : I) : Prop :=
  (i = iref -> isidentity t = true /\ al = pr i) /\
  (i <> iref ->
     image_of apply (kernel fixed (pr i)) (pr i) al /\
     if accumulates i then exists q, p = Some q /\ t = before q (kernel fixed (pr i)) else t = kernel fixed (pr i)).
Lemma align_image_spec st i fixed iref : shaped st -> i < n ->
  exists t al, align_image apply kernel prep raw c st i fixed iref = Ok (with_transfo st i t, al)
    /\ same_shape u t /\ step_fact (nth_error (transfos st) (i - 1)) i fixed iref t al.
Proof.
  intros [H1 H2] Hi. unfold align_image.
  destruct (nth_some (transfos st) i) as [own Ho]; [lia|].
  pose proof (Forall_nth_error _ _ _ _ H1 Ho) as Su.
  destruct (Nat.eqb_spec i iref) as [E|E].
  - unfold settransformidentity. rewrite (get_ok _ _ _ Ho). cbn [bind].
    exists (setidentity own), (pr i). split; [reflexivity|]. split.
    + eapply same_shape_trans; [exact Su|]. apply same_shape_setidentity.
    + split; [intros _; split; [apply isidentity_setidentity|reflexivity]|]. intro F. contradiction.
  - destruct (kernel_ok fixed (pr i)) as [K1 [al K2]].
    assert (Ea : (if isidentity (kernel fixed (pr i)) then Ok (pr i) else apply (kernel fixed (pr i)) (pr i)) = Ok al).
    { destruct K2 as [[A B]|[A B]]; rewrite A; [now rewrite B|exact B]. }
    cbn zeta. rewrite Ea. cbn [bind]. unfold store_transformation. rewrite (get_ok _ _ _ Ho). cbn [bind].
    fold (accumulates i). unfold step_fact. destruct (accumulates i).
    + destruct (nth_some (transfos st) (i - 1)) as [q Hq]; [lia|]. rewrite (get_ok _ _ _ Hq). cbn [bind].
      pose proof (Forall_nth_error _ _ _ _ H1 Hq) as Sq.
      assert (Sb : same_shape u (before q (kernel fixed (pr i)))) by now apply same_shape_before.
      rewrite fromtransform_same by (eapply same_shape_trans; [apply same_shape_sym, Su|exact Sb]). cbn [bind].
      eexists _, al. split; [reflexivity|]. split; [exact Sb|]. split; [intro; contradiction|]. intros _.
      split; [exact K2|]. exists q. now split.
    + rewrite fromtransform_same by (eapply same_shape_trans; [apply same_shape_sym, Su|exact K1]). cbn [bind].
      eexists _, al. split; [reflexivity|]. split; [exact K1|]. split; [intro; contradiction|]. intros _.
      now split.
Qed.

Variable ty : aligntype.
Hypothesis ty_calc : ty <> UseTransfo.
Definition writes (st : state) (i : nat) (al : I) : result (state * list (written (I:=I))) :=
  match ty with CalcTransfo => Ok (st, []) | _ => write_image apply before_transform after_transform raw c ty st i al end.
Variable fr : list (mapping * mapping).
Variable Rout : nat -> mapping -> list (written (I:=I)) -> Prop.
Hypothesis write_ok : forall st p i fixed iref t al, shaped st -> frames st = fr -> i < n -> nth_error (transfos st) i = Some t ->
  step_fact p i fixed iref t al -> exists out, writes st i al = Ok (st, out) /\ Rout i t out.
Definition next_ref (i : nat) (fixed : I) (iref : nat) (al : I) : I * nat :=
  match refimage c with Some _ => (fixed, iref) | None => ((if alignonraw c then pr i else al), i) end.
(* the images from number a on, aligned one after the other; ts are the final transformations *)
Inductive run (ts : list mapping) : nat -> I -> nat -> nat -> list (written (I:=I)) -> Prop :=
| run_nil a fixed iref : run ts a fixed iref 0 []
| run_cons a fixed iref m t al o1 o2 :
    nth_error ts a = Some t -> step_fact (nth_error ts (a - 1)) a fixed iref t al -> Rout a t o1 ->
    run ts (S a) (fst (next_ref a fixed iref al)) (snd (next_ref a fixed iref al)) m o2 ->
    run ts a fixed iref (S m) (o1 ++ o2).
Lemma shaped_with st i t : shaped st -> same_shape u t -> shaped (with_transfo st i t).
Proof.
  intros [H1 H2] Ht. split; cbn [transfos with_transfo]; [now apply Forall_set_nth|now rewrite set_nth_length].
Qed.
Lemma step_fact_0 p q fixed iref t al : step_fact p 0 fixed iref t al -> step_fact q 0 fixed iref t al.
Proof.
  unfold step_fact, accumulates. cbn [Nat.eqb negb]. rewrite !andb_false_r. cbn [andb]. auto.
Qed.
Lemma loop_run m : forall a st fixed iref, shaped st -> frames st = fr -> a + m <= n ->
  exists st' out, align_loop apply kernel prep before_transform after_transform raw c ty st fixed iref (seq a m) = Ok (st', out)
    /\ shaped st' /\ frames st' = fr /\ length (transfos st') = length (transfos st)
    /\ (forall k, k < a -> nth_error (transfos st') k = nth_error (transfos st) k)
    /\ run (transfos st') a fixed iref m out.
Proof.
  induction m as [|m IH]; intros a st fixed iref Hs Hf Ha.
  - exists st, []. cbn. split; [reflexivity|]. split; [exact Hs|]. split; [exact Hf|]. split; [reflexivity|].
    split; [reflexivity|]. constructor.
  - destruct (align_image_spec st a fixed iref Hs ltac:(lia)) as (t & al & A1 & St & F).
    set (st1 := with_transfo st a t) in *.
    assert (Hs1 : shaped st1) by now apply shaped_with.
    assert (Hn1 : nth_error (transfos st1) a = Some t).
    { unfold st1. cbn [with_transfo transfos]. rewrite nth_error_set_nth. rewrite Nat.eqb_refl.
      destruct Hs as [_ Hs]. destruct (Nat.ltb_spec a (length (transfos st))); [reflexivity|lia]. }
    destruct (write_ok st1 _ a fixed iref t al Hs1 Hf ltac:(lia) Hn1 F) as (o1 & W & R).
    destruct (IH (S a) st1 (fst (next_ref a fixed iref al)) (snd (next_ref a fixed iref al)) Hs1 Hf ltac:(lia))
      as (st' & o2 & A2 & B2 & C2 & D2 & E2 & G2).
    exists st', (o1 ++ o2). split.
    { cbn [seq align_loop]. rewrite A1. cbn [bind]. unfold writes in W. unfold next_ref in A2.
      destruct ty; [|contradiction|].
      - destruct (refimage c); cbn [fst snd] in A2; rewrite W; cbn [bind]; rewrite A2; reflexivity.
      - injection W as <-. destruct (refimage c); cbn [fst snd bind app] in *; rewrite A2; reflexivity. }
    split; [exact B2|]. split; [exact C2|]. split; [rewrite D2; unfold st1; cbn; apply set_nth_length|].
    assert (K : forall k, k < a -> nth_error (transfos st') k = nth_error (transfos st) k).
    { intros k Hk. rewrite E2 by lia. unfold st1. cbn [with_transfo transfos]. rewrite nth_error_set_nth.
      destruct (Nat.eqb_spec k a); [lia|]. reflexivity. }
    split; [exact K|]. apply run_cons with (t := t) (al := al); [rewrite E2 by lia; exact Hn1| |exact R|exact G2].
    destruct a as [|a]; [now apply step_fact_0 with (p := nth_error (transfos st) (0 - 1))|]. rewrite K by lia. exact F.
Qed.
Lemma doalign_run st : shaped st -> frames st = fr ->
  let r := match refimage c with None => 0 | Some r => r end in
  exists st' out, doalign apply kernel prep before_transform after_transform raw c ty st = Ok (st', out)
    /\ shaped st' /\ frames st' = fr /\ length (transfos st') = length (transfos st)
    /\ run (transfos st') 0 (pr r) r n out.
Proof.
  intros Hs Hf r. destruct (loop_run n 0 st (pr r) r Hs Hf ltac:(lia)) as (st' & out & A & B & C & D & _ & E).
  exists st', out. auto.
Qed.

End Calc.

Section Run.
Context {I : Type}.
Variable apply : mapping -> I -> result I.
Variable kernel : I -> I -> mapping.
Variable prep : nat -> I -> I.
Variable raw : nat -> nat -> I.
Variable c : settings.
Variable Rout : nat -> mapping -> list (written (I:=I)) -> Prop.
Local Notation n := (nimages c).
Local Notation pr := (fun i => prep i (raw (refdataset c) i)).
Local Notation run := (run apply kernel prep raw c Rout).
(** ** The transformations that are stored *)
Lemma run_fixed ts r m : forall a out, refimage c = Some r -> run ts a (pr r) r m out ->
  forall k, a <= k < a + m -> exists t, nth_error ts k = Some t /\ (k = r -> isidentity t = true)
    /\ (k <> r -> t = kernel (pr r) (pr k)).
Proof.
  induction m as [|m IH]; intros a out Hr H k Hk; [lia|].
  inversion H as [|a' fx ir m' t al o1 o2 Ht Hf _ Hrun]; subst.
  destruct (Nat.eq_dec k a) as [->|Hne].
  - exists t. split; [exact Ht|]. destruct Hf as [F1 F2]. split; [now intro E; apply F1|]. intro E.
    destruct (F2 E) as [_ F]. unfold accumulates in F. rewrite Hr in F. exact F.
  - unfold next_ref in Hrun. rewrite Hr in Hrun. cbn [fst snd] in Hrun. apply (IH _ _ Hr Hrun k). lia.
Qed.
Lemma run_pairwise ts m : forall a out, refimage c = None -> alignonraw c = true ->
  run ts a (pr (a - 1)) (a - 1) m out ->
  forall k, a <= k < a + m -> exists t, nth_error ts k = Some t /\ (k = 0 -> isidentity t = true)
    /\ (k <> 0 -> exists q, nth_error ts (k - 1) = Some q /\ t = before q (kernel (pr (k - 1)) (pr k))).
Proof.
  induction m as [|m IH]; intros a out Hr Ho H k Hk; [lia|].
  inversion H as [|a' fx ir m' t al o1 o2 Ht Hf _ Hrun]; subst.
  destruct (Nat.eq_dec k a) as [->|Hne].
  - exists t. split; [exact Ht|]. destruct Hf as [F1 F2]. split; [intro E; apply F1; lia|]. intro E.
    destruct (F2 ltac:(lia)) as [_ F]. unfold accumulates in F. rewrite Hr, Ho in F.
    destruct (Nat.eqb_spec a 0); [lia|]. exact F.
  - unfold next_ref in Hrun. rewrite Hr, Ho in Hrun. cbn [fst snd] in Hrun.
    apply (IH (S a) o2 Hr Ho); [|lia]. replace (S a - 1) with a by lia. exact Hrun.
Qed.
Lemma run_out ts m : forall a fixed iref out, run ts a fixed iref m out ->
  (forall k t o, Rout k t o -> map fst o = map (fun j => (j, k)) (seq 0 (nsets c))) ->
  map fst out = flat_map (fun i => map (fun j => (j, i)) (seq 0 (nsets c))) (seq a m).
Proof.
  induction m as [|m IH]; intros a fixed iref out H HR;
    inversion H as [|a' fx ir m' t al o1 o2 Ht Hf Ho Hrun]; subst; [reflexivity|].
  cbn [seq flat_map]. etransitivity; [apply map_app|]. exact (f_equal2 (@app _) (HR _ _ _ Ho) (IH _ _ _ _ Hrun HR)).
Qed.
Lemma run_in ts m : forall a fixed iref out, run ts a fixed iref m out ->
  forall w, In w out -> exists k t o, a <= k < a + m /\ nth_error ts k = Some t /\ Rout k t o /\ In w o.
Proof.
  induction m as [|m IH]; intros a fixed iref out H w Hw;
    inversion H as [|a' fx ir m' t al o1 o2 Ht Hf Ho Hrun]; subst; [contradiction|].
  apply in_app_or in Hw as [Hw|Hw].
  - exists a, t, o1. split; [lia|]. auto.
  - destruct (IH _ _ _ _ Hrun w Hw) as (k & t' & o & A & B). exists k, t', o. split; [lia|exact B].
Qed.
End Run.
