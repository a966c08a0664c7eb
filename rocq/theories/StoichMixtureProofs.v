From Verif Require Import StoichModel StoichSpec FitProofs MatProofs StoichProofs StoichMixProofs.
Local Open Scope Qc_scope.

Section Materials.
Context (T : elements_data).
Notation molarmass := (molarmass T).
Notation real_compound := (real_compound T).
Notation real_mixture := (real_mixture T).

Lemma nonneg_in {K} (d : list (K * Qc)) p : nonneg (map snd d) -> In p d -> 0 <= snd p.
Proof. unfold nonneg. rewrite Forall_map, Forall_forall. auto. Qed.
Lemma molarmass_wsum c : molarmass c = wsum (emass T) (cparts c).
Proof. reflexivity. Qed.
Lemma molarmass_pos c : real_compound c -> 0 < molarmass c.
Proof.
  intros (_ & H1 & H2 & _ & H3). unfold StoichModel.molarmass. apply (sum_pos (cparts c) snd).
  - intros p. now apply nonneg_in.
  - exact H2.
  - intros p Hp Hs. apply mul_pos; auto.
  - intros p Hp. apply mul_nonneg; [apply Qclt_le_weak; auto|]. now apply (nonneg_in (cparts c)).
Qed.
(* the amount of kind k of one mole *)
Definition per_mole (k : kind) (c : compound) : Qc :=
  match k with Mole => 1 | Mass => molarmass c | Volume => molarmass c / cdensity c end.
Lemma per_mole_pos k c : real_compound c -> 0 < per_mole k c.
Proof.
  intros H. assert (P := molarmass_pos c H). destruct k; cbn [per_mole]; [assumption|reflexivity|]. apply div_pos; [assumption|]. now destruct H as (_ & _ & _ & D & _).
Qed.
Lemma combine_map {A B} (f : A -> B) (l : list (A * Qc)) (h : A * Qc -> Qc) : combine (map fst l) (map h l) = map (fun p => (fst p, h p)) l.
Proof. induction l as [|p l IH]; [reflexivity|]. cbn [map combine]. now rewrite IH. Qed.

Definition comp_of (p : compound * Qc) : comp := (snd p, cdensity (fst p), molarmass (fst p)).
Lemma comp_good d : nonneg (map snd d) -> 0 < total d -> (forall p, In p d -> real_compound (fst p)) -> good (map comp_of d).
Proof.
  intros H1 H2 H3. repeat split.
  - intros c Hc. apply in_map_iff in Hc as (p & <- & Hp). now apply (nonneg_in d).
  - rewrite map_map. exact H2.
  - intros c Hc. apply in_map_iff in Hc as (p & <- & Hp). destruct (H3 p Hp) as (_ & _ & _ & D & _). exact D.
  - intros c Hc. apply in_map_iff in Hc as (p & <- & Hp). exact (molarmass_pos _ (H3 p Hp)).
Qed.
Lemma amounts_eq d k : nonneg (map snd d) -> 0 < total d -> (forall p, In p d -> real_compound (fst p)) ->
  exists s, 0 < s /\ amounts T (map fst d) (map snd d) k = Ok (map (fun p => snd p / per_mole k (fst p) / s) d).
Proof.
  intros H1 H2 H3. assert (HG := comp_good d H1 H2 H3).
  assert (forall b, b <> Mole -> 0 < qsum (map (am b Mole) (map comp_of d)) /\
    conv b Mole (map snd d) (map cdensity (map fst d)) (map molarmass (map fst d)) = Ok (map (fun p => am b Mole (comp_of p) / qsum (map (am b Mole) (map comp_of d))) d)) as HC.
  { intros b Hb. split; [now apply total_pos|]. assert (E := conv_ok b Mole (map comp_of d) Hb HG). rewrite !map_map in E. rewrite !map_map. exact E. }
  destruct k; cbn [amounts per_mole].
  - destruct (HC Mass ltac:(discriminate)) as [P E]. eexists. split; [exact P|]. exact E.
  - exists 1. split; [reflexivity|]. f_equal. apply map_ext_in. intros p _. field. discriminate.
  - destruct (HC Volume ltac:(discriminate)) as [P E]. eexists. split; [exact P|]. cbn [conv] in E. rewrite E. f_equal. apply map_ext_in. intros p Hp.
    unfold am, amount, comp_of, given, dens, mass. cbn [fst snd]. assert (M := pos_ne _ (molarmass_pos _ (H3 p Hp))). destruct (H3 p Hp) as (_ & _ & _ & D & _). apply pos_ne in D.
    fold comp_of. set (t := qsum _) in *. apply pos_ne in P. clearbody t. field. auto.
Qed.
Lemma fractions_eq m k : nonneg (map snd m) -> 0 < total m -> (forall p, In p m -> real_compound (fst p)) ->
  0 < wsum (per_mole k) m /\ fractions_of T m k = Ok (map (fun p => (fst p, snd p * per_mole k (fst p) / wsum (per_mole k) m)) m).
Proof.
  intros H1 H2 H3. assert (HG := comp_good m H1 H2 H3).
  assert (forall b, b <> Mole -> 0 < qsum (map (am Mole b) (map comp_of m)) /\
    conv Mole b (map snd m) (map cdensity (map fst m)) (map molarmass (map fst m)) = Ok (map (fun p => am Mole b (comp_of p) / qsum (map (am Mole b) (map comp_of m))) m)) as HC.
  { intros b Hb. split; [now apply total_pos|]. assert (E := conv_ok Mole b (map comp_of m) (not_eq_sym Hb) HG). rewrite !map_map in E. rewrite !map_map. exact E. }
  destruct k; unfold fractions_of, wsum; cbn [per_mole].
  - destruct (HC Mass ltac:(discriminate)) as [P E]. rewrite (map_map comp_of (am Mole Mass)) in P, E.
    rewrite (sum_ext m (fun c => am Mole Mass (comp_of c)) (fun p => molarmass (fst p) * snd p)) in P, E by (intros; unfold am, amount; cbn [comp_of given mass fst snd]; unfold given, mass; cbn [fst snd comp_of]; ring).
    split; [exact P|]. cbn [conv] in E. rewrite E. cbn [bind]. f_equal. now rewrite (combine_map (fun c => c)).
  - split.
    + rewrite (sum_ext m (fun p => 1 * snd p) snd) by (intros; ring). exact H2.
    + rewrite div1_map by now apply pos_ne. cbn [bind]. rewrite (combine_map (fun c => c)). f_equal.
      rewrite (sum_ext m (fun p => 1 * snd p) snd) by (intros; ring). apply map_ext_in. intros p _. f_equal. unfold Qcdiv. ring.
  - destruct (HC Volume ltac:(discriminate)) as [P E]. rewrite (map_map comp_of (am Mole Volume)) in P, E.
    rewrite (sum_ext m (fun c => am Mole Volume (comp_of c)) (fun p => molarmass (fst p) / cdensity (fst p) * snd p)) in P, E
      by (intros; unfold am, amount, given, mass, dens, comp_of, Qcdiv; cbn [fst snd]; ring).
    split; [exact P|]. cbn [conv] in E. rewrite E. cbn [bind]. f_equal. rewrite (combine_map (fun c => c)). apply map_ext_in. intros p _. f_equal.
    unfold am, amount, given, mass, dens, comp_of, Qcdiv. cbn [fst snd]. ring.
Qed.

Lemma wsum_map {K} (g : K -> Qc) (h : K * Qc -> Qc) d : wsum g (map (fun p => (fst p, h p)) d) = qsum (map (fun p => g (fst p) * h p) d).
Proof. unfold wsum. now rewrite map_map. Qed.
Lemma compose_sums cs ns g : identified cs -> length cs = length ns ->
  wsum g (compose compound_eqb cs ns) = wsum g (combine cs ns) /\ no_repeats compound_eqb (map fst (compose compound_eqb cs ns)) /\
  (forall k, In k (map fst (compose compound_eqb cs ns)) -> In k cs) /\
  (nonneg ns -> nonneg (map snd (compose compound_eqb cs ns))).
Proof.
  intros HI HL. unfold compose. change (fold_left _ ?l []) with (steps compound_eqb l []).
  destruct (steps_spec compound_eqb (combine cs ns) [] g) as (S1 & S2 & S3 & S4).
  - constructor.
  - cbn [map app]. rewrite map_fst_combine by assumption. intros a b Ha Hb E. apply compound_eqb_name in E. now rewrite (HI a b Ha Hb E).
  - rewrite map_fst_combine in S3 by assumption. rewrite map_snd_combine in S4 by assumption.
    split; [rewrite S1; change (wsum g []) with 0; ring|]. split; [assumption|]. split; [exact S3|]. intros HN. apply S4; [constructor|assumption].
Qed.

(* a mixture made of fractions has these fractions *)
Lemma mixture_of d k : identified (map fst d) -> nonneg (map snd d) -> 0 < total d -> (forall p, In p d -> real_compound (fst p)) ->
  exists m, new_mixture T (map fst d) (map snd d) k = Ok m /\ real_mixture m /\ (forall p, In p m -> In (fst p) (map fst d)) /\
  exists F, fractions_of T m k = Ok F /\ map fst F = map fst m /\ total F = 1 /\ forall c, share compound_eqb c F = share compound_eqb c d / total d.
Proof.
  intros HI HN HT HR. destruct (amounts_eq d k HN HT HR) as (s & Hs & EA). unfold new_mixture. rewrite EA. cbn [bind].
  set (ns := map (fun p => snd p / per_mole k (fst p) / s) d).
  assert (HU := fun p Hp => per_mole_pos k (fst p) (HR p Hp)).
  assert (length (map fst d) = length ns) as HL by (unfold ns; now rewrite !map_length).
  assert (nonneg ns) as HNs.
  { unfold nonneg, ns. rewrite Forall_map, Forall_forall. intros p Hp. apply div_nonneg; [|assumption]. apply div_nonneg; [now apply (nonneg_in d)|auto]. }
  set (m := compose compound_eqb (map fst d) ns). exists m. split; [reflexivity|].
  assert (HW := fun g => compose_sums (map fst d) ns g HI HL). fold m in HW.
  assert (forall g, wsum g m = qsum (map (fun p => g (fst p) * (snd p / per_mole k (fst p) / s)) d)) as WS.
  { intros g. rewrite (proj1 (HW g)). unfold ns. rewrite (combine_map (fun c => c)). apply wsum_map. }
  assert (forall p, In p m -> In (fst p) (map fst d)) as HK.
  { intros p Hp. apply (proj1 (proj2 (proj2 (HW (fun _ => 1))))). now apply in_map. }
  assert (forall p, In p m -> real_compound (fst p)) as HRm.
  { intros p Hp. specialize (HK p Hp). apply in_map_iff in HK as (q & E & Hq). rewrite <- E. auto. }
  assert (nonneg (map snd m)) as HNm by (now apply (HW (fun _ => 1))).
  assert (0 < total m) as HTm.
  { rewrite total_wsum, WS. apply (sum_pos d snd); [intros; now apply (nonneg_in d)|assumption|intros p Hp Q|intros p Hp]; rewrite Qcmult_1_l.
    - apply div_pos; [|assumption]. apply div_pos; auto.
    - apply div_nonneg; [|assumption]. apply div_nonneg; [now apply (nonneg_in d)|auto]. }
  split; [exact (conj (proj1 (proj2 (HW (fun _ => 1)))) (conj HNm (conj HTm HRm)))|]. split; [assumption|].
  destruct (fractions_eq m k HNm HTm HRm) as [P E]. eexists. split; [exact E|]. rewrite map_map. cbn [fst]. split; [reflexivity|].
  assert (wsum (per_mole k) m = total d / s) as EW.
  { rewrite WS. unfold total. rewrite <- sum_div. apply sum_ext. intros p Hp. specialize (HU p Hp). apply pos_ne in HU, Hs. field. auto. }
  split.
  - rewrite total_wsum, wsum_map. rewrite (sum_ext m _ (fun p => per_mole k (fst p) * snd p / wsum (per_mole k) m)) by (intros; unfold Qcdiv; ring).
    rewrite sum_div. fold (wsum (per_mole k) m). apply pos_ne in P. field. assumption.
  - intros c. rewrite share_wsum, wsum_map.
    rewrite (sum_ext m _ (fun p => (if compound_eqb (fst p) c then per_mole k (fst p) else 0) * snd p / wsum (per_mole k) m)) by (intros; destruct (compound_eqb _ _); unfold Qcdiv; ring).
    rewrite sum_div. fold (wsum (fun x => if compound_eqb x c then per_mole k x else 0) m). rewrite WS.
    rewrite (sum_ext d _ (fun p => (if compound_eqb (fst p) c then snd p else 0) / s)).
    + rewrite sum_div. fold (share compound_eqb c d). rewrite EW. apply pos_ne in Hs, HT. field. auto.
    + intros p Hp. specialize (HU p Hp). apply pos_ne in HU, Hs. destruct (compound_eqb _ _); field; auto.
Qed.

Lemma share_app {K} (eqb : K -> K -> bool) k d d' : share eqb k (d ++ d') = share eqb k d + share eqb k d'.
Proof. rewrite !share_wsum. apply wsum_app. Qed.
Lemma share_scale {K} (eqb : K -> K -> bool) k a d : share eqb k (map (fun p => (fst p, a * snd p)) d) = a * share eqb k d.
Proof. unfold share. rewrite map_map, <- sum_scale. apply sum_ext. intros p _. cbn [fst snd]. destruct (eqb _ _); ring. Qed.
Lemma total_app {K} (d d' : list (K * Qc)) : total (d ++ d') = total d + total d'.
Proof. unfold total. now rewrite map_app, qsum_app. Qed.

(* adding compounds *)
Lemma added m new k : real_mixture m -> identified (map fst m ++ map fst new) -> nonneg (map snd new) -> total new <= 1 ->
  (forall p, In p new -> real_compound (fst p)) ->
  exists F0 m' F, fractions_of T m k = Ok F0 /\ addcompounds T m (map fst new) (map snd new) k = Ok m' /\ real_mixture m' /\ fractions_of T m' k = Ok F /\
    total F = 1 /\ forall c, share compound_eqb c F = (1 - total new) * share compound_eqb c F0 + share compound_eqb c new.
Proof.
  intros (M1 & M2 & M3 & M4) HI HN HT HR. destruct (fractions_eq m k M2 M3 M4) as [P E].
  set (F0 := map (fun p => (fst p, snd p * per_mole k (fst p) / wsum (per_mole k) m)) m) in *.
  assert (HU := fun p Hp => per_mole_pos k (fst p) (M4 p Hp)).
  assert (map fst F0 = map fst m) as KF by (unfold F0; now rewrite map_map).
  assert (total F0 = 1) as TF.
  { unfold F0. rewrite total_wsum, wsum_map. rewrite (sum_ext m _ (fun p => per_mole k (fst p) * snd p / wsum (per_mole k) m)) by (intros; unfold Qcdiv; ring).
    rewrite sum_div. fold (wsum (per_mole k) m). apply pos_ne in P. field. assumption. }
  assert (nonneg (map snd F0)) as NF.
  { unfold F0, nonneg. rewrite map_map, Forall_map, Forall_forall. intros p Hp. cbn [snd]. apply div_nonneg; [|assumption]. apply mul_nonneg; [now apply (nonneg_in m)|]. apply Qclt_le_weak. auto. }
  (* the fractions added to, which for moles are the amounts *)
  set (f := match k with Mole => m | _ => F0 end).
  assert (map fst f = map fst m /\ nonneg (map snd f) /\ 0 < total f /\ forall c, share compound_eqb c f = total f * share compound_eqb c F0) as (f1 & f2 & f3 & f4).
  { destruct k; unfold f; try (repeat split; try assumption; [rewrite TF; reflexivity|intros c; rewrite TF; ring]).
    repeat split; try assumption. intros c. unfold F0. unfold share. rewrite map_map. cbn [fst snd].
    rewrite (sum_ext m (fun x => if compound_eqb (fst x) c then snd x * per_mole Mole (fst x) / wsum (per_mole Mole) m else 0) (fun x => (if compound_eqb (fst x) c then snd x else 0) / total m)).
    - rewrite sum_div. apply pos_ne in M3. field. assumption.
    - intros p _. cbn [per_mole]. rewrite total_wsum. change (wsum (per_mole Mole) m) with (wsum (fun _ : compound => 1) m). destruct (compound_eqb _ _); unfold Qcdiv; ring. }
  assert (addcompounds T m (map fst new) (map snd new) k =
    let! f' := add_frac (map snd f) (map snd new) in let! n := amounts T (map fst f ++ map fst new) f' k in Ok (compose compound_eqb (map fst f ++ map fst new) n)) as EA.
  { unfold addcompounds, f. destruct k; [rewrite E|..]; try reflexivity. rewrite E. reflexivity. }
  rewrite add_frac_eq in EA by exact HT. cbn [bind] in EA. fold (total new) in EA.
  set (d := map (fun p => (fst p, (1 - total new) * snd p)) f ++ map (fun p => (fst p, total f * snd p)) new).
  assert (map fst d = map fst f ++ map fst new) as D1 by (unfold d; rewrite map_app, !map_map; reflexivity).
  assert (map snd d = map (fun q => (1 - total new) * q) (map snd f) ++ map (fun q => q * qsum (map snd f)) (map snd new)) as D2.
  { unfold d. rewrite map_app, !map_map. cbn [snd]. f_equal. apply map_ext. intros p. unfold total. ring. }
  rewrite <- D1, <- D2 in EA. fold (new_mixture T (map fst d) (map snd d) k) in EA.
  assert (total d = total f) as TD by (unfold total at 1; rewrite D2; apply add_frac_sum).
  destruct (mixture_of d k) as (m' & Em & HRm & _ & F & EF & _ & TF' & SF).
  - rewrite D1, f1. assumption.
  - unfold nonneg. rewrite D2, Forall_app, !Forall_map. split; rewrite Forall_forall; intros p Hp.
    + apply mul_nonneg; [qclra|now apply (nonneg_in f)].
    + apply mul_nonneg; [now apply (nonneg_in new)|]. apply Qclt_le_weak. exact f3.
  - rewrite TD. assumption.
  - intros p Hp. assert (In (fst p) (map fst d)) as Hk by now apply in_map. rewrite D1, f1 in Hk. apply in_app_iff in Hk as [Hk|Hk].
    + apply in_map_iff in Hk as (q & <- & Hq). auto.
    + apply in_map_iff in Hk as (q & <- & Hq). auto.
  - exists F0, m', F. rewrite EA. split; [assumption|]. split; [assumption|]. split; [assumption|]. split; [assumption|]. split; [assumption|].
    intros c. rewrite SF, TD. unfold d. rewrite share_app, !share_scale, f4. apply pos_ne in f3. field. assumption.
Qed.
Lemma add_too_much m cs fr k : real_mixture m -> 1 < qsum fr -> addcompounds T m cs fr k = Err ValueError.
Proof.
  intros (M1 & M2 & M3 & M4) H. destruct (fractions_eq m k M2 M3 M4) as [P E]. unfold addcompounds.
  destruct k; rewrite ?E; cbn [bind]; now rewrite (proj2 (add_frac_spec _ fr) H).
Qed.

(* ---- the elements ---- *)
Lemma cmassfractions_eq c : real_compound c ->
  cmassfractions T c = Ok (map (fun p => (fst p, emass T (fst p) * snd p / molarmass c)) (cparts c)).
Proof.
  intros HR. assert (P := pos_ne _ (molarmass_pos c HR)). unfold cmassfractions, frac_mole_to_weight, cmasses.
  rewrite times_map. cbn [bind]. rewrite (sum_ext (cparts c) (fun x => snd x * emass T (fst x)) (fun p => emass T (fst p) * snd p)) by (intros; ring).
  fold (molarmass c). rewrite div1_map by assumption. cbn [bind]. rewrite (combine_map (fun c => c)). f_equal. apply map_ext. intros p. f_equal. unfold Qcdiv. ring.
Qed.
Lemma each_ok {A} (f : compound -> result A) (h : compound -> A) m : (forall p, In p m -> f (fst p) = Ok (h (fst p))) ->
  each f m = Ok (map (fun p => (h (fst p), snd p)) m).
Proof.
  induction m as [|[c w] m IH]; intros H; [reflexivity|]. cbn [each]. assert (f c = Ok (h c)) as -> by (apply (H (c, w)); now left). cbn [bind].
  rewrite IH by (intros; apply H; now right). reflexivity.
Qed.
Lemma nat_key (g : nat -> Qc) a b : Nat.eqb a b = true -> g a = g b.
Proof. intros H. apply Nat.eqb_eq in H. now subst. Qed.
Definition gather (l : list (list (nat * Qc) * Qc)) (d : list (nat * Qc)) : list (nat * Qc) :=
  fold_left (fun d p => fold_left (fun d q => dict_add Nat.eqb d (fst q) (snd p * snd q)) (fst p) d) l d.
Lemma gather_inner p d : fold_left (fun d q => dict_add Nat.eqb d (fst q) (snd p * snd q)) (fst p) d =
  steps Nat.eqb (map (fun q => (fst q, snd p * snd q)) (fst p)) d.
Proof.
  destruct p as [l w]. cbn [fst snd]. revert d. induction l as [|q l IH]; intros d; [reflexivity|]. cbn [fold_left map steps fst snd]. apply IH.
Qed.
Lemma gather_spec g l d : no_repeats Nat.eqb (map fst d) ->
  wsum g (gather l d) = wsum g d + qsum (map (fun p => snd p * wsum g (fst p)) l) /\ no_repeats Nat.eqb (map fst (gather l d)) /\
  (nonneg (map snd d) -> (forall p, In p l -> 0 <= snd p /\ nonneg (map snd (fst p))) -> nonneg (map snd (gather l d))) /\
  (forall e, In e (map fst (gather l d)) -> In e (map fst d) \/ exists p, In p l /\ In e (map fst (fst p))).
Proof.
  revert d. induction l as [|p l IH]; intros d HN.
  - cbn [gather fold_left map]. change (qsum []) with 0. split; [ring|auto].
  - cbn [gather fold_left]. rewrite gather_inner. fold (gather l (steps Nat.eqb (map (fun q => (fst q, snd p * snd q)) (fst p)) d)).
    destruct (steps_spec Nat.eqb (map (fun q => (fst q, snd p * snd q)) (fst p)) d g HN) as (S1 & S2 & S3 & S4); [intros a b _ _; apply nat_key|].
    destruct (IH _ S2) as (I1 & I2 & I3 & I4). split; [|split; [assumption|split]].
    + rewrite I1, S1. cbn [map]. change (qsum (?a :: ?x)) with (a + qsum x). unfold wsum at 2. rewrite map_map. cbn [fst snd].
      rewrite (sum_ext (fst p) _ (fun q => snd p * (g (fst q) * snd q))) by (intros; ring). rewrite sum_scale. fold (wsum g (fst p)). ring.
    + intros Hd Hl. apply I3; [|intros; apply Hl; now right]. destruct (Hl p) as [Hp Hq]; [now left|]. apply S4; [assumption|].
      unfold nonneg in *. rewrite map_map, Forall_map, Forall_forall. rewrite Forall_map, Forall_forall in Hq. intros q Hin. cbn [snd]. apply mul_nonneg; auto.
    + intros e He. apply I4 in He as [He|(q & Hq & He)]; [|right; exists q; split; [now right|assumption]].
      apply S3 in He. apply in_app_iff in He as [He|He]; [now left|]. right. exists p. split; [now left|]. now rewrite map_map in He.
Qed.
Lemma collect_spec g l : wsum g (collect l) = qsum (map (fun p => snd p * wsum g (fst p)) l).
Proof. change (collect l) with (gather l []). rewrite (proj1 (gather_spec g l [] ltac:(constructor))). change (wsum g []) with 0. ring. Qed.
Lemma collect_norep l : no_repeats Nat.eqb (map fst (collect l)).
Proof. exact (proj1 (proj2 (gather_spec (fun _ => 0) l [] ltac:(constructor)))). Qed.

Lemma total_mass_wsum m : total_mass T m = wsum molarmass m.
Proof. unfold total_mass, wsum. apply sum_ext. intros; ring. Qed.
Lemma wsum_at g e d : wsum (fun x => if Nat.eqb x e then g x else 0) d = g e * share Nat.eqb e d.
Proof.
  unfold wsum, share. rewrite <- sum_scale. apply sum_ext. intros p _. destruct (Nat.eqb_spec (fst p) e) as [<-|]; ring.
Qed.
Lemma elemental_masses m : real_mixture m -> exists W F, fractions_of T m Mass = Ok W /\ elemental_massfractions T m = Ok F /\
  no_repeats Nat.eqb (map fst F) /\ total F = 1 /\ 0 < total_mass T m /\
  (forall e, share Nat.eqb e F = element_mass T e m / total_mass T m) /\
  (forall e, share Nat.eqb e F = qsum (map (fun p => snd p * match cmassfractions T (fst p) with Ok f => share Nat.eqb e f | Err _ => 0 end) W)).
Proof.
  intros (M1 & M2 & M3 & M4). destruct (fractions_eq m Mass M2 M3 M4) as [P E]. cbn [per_mole] in *. rewrite <- total_mass_wsum in *.
  set (W := map _ m) in E. exists W.
  set (h := fun c => map (fun p => (fst p, emass T (fst p) * snd p / molarmass c)) (cparts c)).
  assert (HW : forall p, In p W -> real_compound (fst p)).
  { unfold W. intros p Hp. apply in_map_iff in Hp as (q & <- & Hq). cbn [fst]. auto. }
  exists (collect (map (fun p => (h (fst p), snd p)) W)). split; [assumption|]. split.
  { unfold elemental_massfractions. rewrite E. cbn [bind]. fold W. rewrite (each_ok (cmassfractions T) h); [reflexivity|]. intros p Hp. apply cmassfractions_eq. auto. }
  split; [apply collect_norep|].
  assert (forall g, wsum g (collect (map (fun p => (h (fst p), snd p)) W)) = qsum (map (fun p => snd p * wsum (fun e => g e * emass T e) (cparts (fst p))) m) / total_mass T m) as HS.
  { intros g. rewrite collect_spec, map_map. cbn [fst snd]. unfold W. rewrite map_map. cbn [fst snd]. rewrite <- sum_div. apply sum_ext. intros p Hp.
    assert (N := pos_ne _ (molarmass_pos _ (M4 p Hp))). assert (N' := pos_ne _ P). unfold h. rewrite wsum_map.
    rewrite (sum_ext (cparts (fst p)) _ (fun q => g (fst q) * emass T (fst q) * snd q / molarmass (fst p))) by (intros; unfold Qcdiv; ring).
    rewrite sum_div. fold (wsum (fun e => g e * emass T e) (cparts (fst p))). field. auto. }
  split; [|split; [assumption|split]].
  - rewrite total_wsum, HS. rewrite (sum_ext m _ (fun p => molarmass (fst p) * snd p)).
    + fold (wsum molarmass m). rewrite <- total_mass_wsum. apply pos_ne in P. field. assumption.
    + intros p _. rewrite molarmass_wsum. rewrite (wsum_ext (fun e => 1 * emass T e) (emass T)) by (intros; ring). ring.
  - intros e. rewrite share_wsum, HS. unfold Qcdiv. f_equal. unfold element_mass. apply sum_ext. intros p _.
    rewrite (wsum_ext _ (fun x => if Nat.eqb x e then emass T x else 0)) by (intros k _; destruct (Nat.eqb k e); ring). rewrite wsum_at. ring.
  - intros e. rewrite share_wsum, collect_spec, map_map. cbn [fst snd]. apply sum_ext. intros p Hp. rewrite cmassfractions_eq by auto.
    fold (h (fst p)). now rewrite share_wsum.
Qed.

Lemma compose_keep p : no_repeats Nat.eqb (map fst p) -> compose Nat.eqb (map fst p) (map snd p) = p.
Proof.
  intros H. unfold compose. change (fold_left _ ?l []) with (steps Nat.eqb l []).
  assert (combine (map fst p) (map snd p) = p) as -> by (clear; induction p as [|[a b] p IH]; [reflexivity|]; cbn; now rewrite IH).
  rewrite steps_new; [reflexivity|]. exact H.
Qed.
Lemma collapsed name m : real_mixture m -> exists c d, tocompound T name m = Ok c /\ real_compound c /\ cname c = name /\
  mdensity T m = Ok d /\ cdensity c = d /\
  d * qsum (map (fun p => snd p * molarmass (fst p) / cdensity (fst p)) m) = total_mass T m /\
  molarmass c = mmolarmass T m /\ mmolarmass T m = total_mass T m /\
  exists F F', elemental_massfractions T m = Ok F /\ cmassfractions T c = Ok F' /\ forall e, share Nat.eqb e F = share Nat.eqb e F'.
Proof.
  intros HR. destruct (elemental_masses m HR) as (W & F & _ & EF & _ & _ & P & SF & _). destruct HR as (M1 & M2 & M3 & M4).
  assert (forall p, In p m -> cdensity (fst p) <> 0) as ND by (intros p Hp; destruct (M4 p Hp) as (_ & _ & _ & D & _); now apply pos_ne).
  assert (0 < qsum (map (fun p => snd p * molarmass (fst p) / cdensity (fst p)) m)) as PV.
  { apply (sum_pos m snd).
    - intros; now apply (nonneg_in m).
    - exact M3.
    - intros p Hp Q. destruct (M4 p Hp) as (_ & _ & _ & D & _). apply div_pos; [|assumption]. apply mul_pos; [assumption|]. apply molarmass_pos; auto.
    - intros p Hp. destruct (M4 p Hp) as (_ & _ & _ & D & _). apply div_nonneg; [|assumption]. apply mul_nonneg; [now apply (nonneg_in m)|].
      apply Qclt_le_weak. apply molarmass_pos; auto. }
  set (V := qsum (map (fun p => snd p * molarmass (fst p) / cdensity (fst p)) m)) in *.
  assert (mdensity T m = Ok (total_mass T m / V)) as ED.
  { unfold mdensity, density_from_molefrac. rewrite times_map. cbn [bind]. rewrite divs_map by assumption. cbn [bind].
    fold V. fold (total_mass T m). apply qdiv_ok. now apply pos_ne. }
  set (el := elemental_equivalents m).
  assert (no_repeats Nat.eqb (map fst el)) as NR by apply collect_norep.
  assert (forall g, wsum g el = qsum (map (fun p => snd p * wsum g (cparts (fst p))) m)) as WE.
  { intros g. unfold el, elemental_equivalents. rewrite collect_spec, map_map. reflexivity. }
  assert (0 < total_mass T m / V) as PD by now apply div_pos.
  exists {| cname := name; cparts := el; cdensity := total_mass T m / V |}, (total_mass T m / V).
  assert (tocompound T name m = Ok {| cname := name; cparts := el; cdensity := total_mass T m / V |}) as ET.
  { unfold tocompound. rewrite ED. cbn [bind]. unfold new_compound. cbn [bind]. fold el. rewrite compose_keep by assumption.
    destruct (Qc_eqb _ 0) eqn:X; [qc_bool; apply pos_ne in PD; contradiction|reflexivity]. }
  assert (nonneg (map snd el)) as NN.
  { unfold el, elemental_equivalents. change (collect ?l) with (gather l []).
    apply (gather_spec (fun _ => 0) (map (fun p => (cparts (fst p), snd p)) m) [] ltac:(constructor)); [constructor|].
    intros p Hp. apply in_map_iff in Hp as (q & <- & Hq). cbn [fst snd]. split; [now apply (nonneg_in m)|]. now destruct (M4 q Hq) as (_ & N & _). }
  assert (0 < total el) as PT.
  { rewrite total_wsum, WE. apply (sum_pos m snd).
    - intros; now apply (nonneg_in m).
    - exact M3.
    - intros p Hp Q. destruct (M4 p Hp) as (_ & _ & TT & _). rewrite <- total_wsum. now apply mul_pos.
    - intros p Hp. destruct (M4 p Hp) as (_ & _ & TT & _). rewrite <- total_wsum. apply mul_nonneg; [now apply (nonneg_in m)|now apply Qclt_le_weak]. }
  assert (real_compound {| cname := name; cparts := el; cdensity := total_mass T m / V |}) as RC.
  { repeat split; cbn [cparts cdensity]; try assumption. intros p Hp.
    assert (In (fst p) (map fst el)) as Hk by now apply in_map.
    unfold el, elemental_equivalents in Hk. change (collect ?l) with (gather l []) in Hk.
    apply (proj2 (proj2 (proj2 (gather_spec (fun _ => 0) (map (fun p => (cparts (fst p), snd p)) m) [] ltac:(constructor))))) in Hk as [[]|(q & Hq & Hk)].
    apply in_map_iff in Hq as (r & <- & Hr). cbn [fst] in Hk. apply in_map_iff in Hk as (z & <- & Hz). destruct (M4 r Hr) as (_ & _ & _ & _ & G). auto. }
  assert (mmolarmass T m = total_mass T m) as EM.
  { unfold mmolarmass. fold el. fold (wsum (emass T) el). rewrite WE. unfold total_mass. apply sum_ext. intros p _. now rewrite molarmass_wsum. }
  split; [assumption|]. split; [assumption|]. split; [reflexivity|]. split; [assumption|]. split; [reflexivity|]. split; [apply pos_ne in PV; field; assumption|].
  split; [reflexivity|]. split; [assumption|].
  eexists F, _. split; [assumption|]. split; [now apply cmassfractions_eq|]. intros e. rewrite SF, share_wsum, wsum_map. cbn [cparts].
  assert (StoichModel.molarmass T {| cname := name; cparts := el; cdensity := total_mass T m / V |} = total_mass T m) as -> by (rewrite <- EM; reflexivity).
  rewrite (sum_ext el _ (fun p => (if Nat.eqb (fst p) e then emass T (fst p) else 0) * snd p / total_mass T m)) by (intros p _; destruct (Nat.eqb _ _); unfold Qcdiv; ring).
  rewrite sum_div. fold (wsum (fun x => if Nat.eqb x e then emass T x else 0) el). rewrite WE. f_equal. unfold element_mass. apply sum_ext. intros p _. rewrite wsum_at. ring.
Qed.
End Materials.
