From Coq Require Import String.
From Verif Require Import StoichModel StoichSpec FitProofs MatProofs StoichProofs StoichMixProofs StoichMixtureProofs.
Local Open Scope Qc_scope.

Section Elements.
Context (T : elements_data).
Definition weight (k : kind) (e : nat) : Qc := match k with Mass => emass T e | _ => 1 end.
Lemma weight_pos k e : 0 < emass T e -> 0 < weight k e.
Proof. destruct k; intros H; [assumption|reflexivity|reflexivity]. Qed.

Lemma cfractions_eq c k : k <> Volume -> nonneg (map snd (cparts c)) -> 0 < total (cparts c) -> (forall p, In p (cparts c) -> 0 < emass T (fst p)) ->
  0 < wsum (weight k) (cparts c) /\ cfractions T c k = Ok (map (fun p => (fst p, weight k (fst p) * snd p / wsum (weight k) (cparts c))) (cparts c)).
Proof.
  intros Hk HN HT HM.
  assert (0 < wsum (weight k) (cparts c)) as P.
  { unfold wsum. apply (sum_pos (cparts c) snd).
    - intros p. now apply nonneg_in.
    - exact HT.
    - intros p Hp Hs. apply mul_pos; [apply weight_pos|]; auto.
    - intros p Hp. apply mul_nonneg; [apply Qclt_le_weak, weight_pos; auto|]. now apply (nonneg_in (cparts c)). }
  split; [assumption|]. assert (N := pos_ne _ P). destruct k; [|clear Hk|contradiction].
  - unfold cfractions, cmassfractions, frac_mole_to_weight, cmasses. rewrite times_map. cbn [bind].
    rewrite (sum_ext (cparts c) (fun x => snd x * emass T (fst x)) (fun p => weight Mass (fst p) * snd p)) by (intros; cbn [weight]; ring).
    fold (wsum (weight Mass) (cparts c)). rewrite div1_map by assumption. cbn [bind]. rewrite (combine_map (fun c => c)). f_equal. apply map_ext. intros p. f_equal. cbn [weight]. unfold Qcdiv. ring.
  - unfold cfractions, cmolefractions. rewrite div1_map by now apply pos_ne. cbn [bind]. rewrite (combine_map (fun c => c)). f_equal.
    change (qsum (map snd (cparts c))) with (total (cparts c)). rewrite total_wsum. apply map_ext. intros p. f_equal. cbn [weight]. change (wsum (weight Mole) (cparts c)) with (wsum (fun _ : nat => 1) (cparts c)). unfold Qcdiv. ring.
Qed.

(* the parts made of fractions of kind k *)
Definition parts_of (els : list nat) (fr : list Qc) (k : kind) : result (list (nat * Qc)) :=
  let! n := match k with Mole => Ok fr | Volume => Err ValueError | Mass => frac_weight_to_mole fr (map (emass T) els) end in
  Ok (compose Nat.eqb els n).
Lemma parts_are d k : k <> Volume -> nonneg (map snd d) -> 0 < total d -> (forall p, In p d -> 0 < emass T (fst p)) ->
  exists P, parts_of (map fst d) (map snd d) k = Ok P /\ no_repeats Nat.eqb (map fst P) /\ nonneg (map snd P) /\ 0 < total P /\ (forall p, In p P -> 0 < emass T (fst p)) /\
  forall name dens, exists F, cfractions T {| cname := name; cparts := P; cdensity := dens |} k = Ok F /\ total F = 1 /\
    forall e, share Nat.eqb e F = share Nat.eqb e d / total d.
Proof.
  intros Hk HN HT HM.
  assert (exists s, 0 < s /\ parts_of (map fst d) (map snd d) k = Ok (compose Nat.eqb (map fst d) (map (fun p => snd p / weight k (fst p) / s) d))) as (s & Hs & EP).
  { destruct k; [| |contradiction].
    - set (l := map (fun p => (snd p, 1, emass T (fst p))) d : list comp).
      assert (good l) as HG.
      { unfold l. repeat split.
        - intros c Hc. apply in_map_iff in Hc as (p & <- & Hp). now apply (nonneg_in d).
        - rewrite map_map. exact HT.
        - intros c Hc. apply in_map_iff in Hc as (p & <- & Hp). reflexivity.
        - intros c Hc. apply in_map_iff in Hc as (p & <- & Hp). exact (HM p Hp). }
      assert (Mass <> Mole) as NE by discriminate. assert (E := conv_ok Mass Mole l NE HG). assert (P := total_pos Mass Mole l HG).
      exists (qsum (map (am Mass Mole) l)). split; [assumption|]. cbn [conv] in E. unfold l in E at 1 2 4. rewrite !map_map in E.
      unfold parts_of. rewrite map_map. change (map snd d) with (map (fun x : nat * Qc => given (snd x, 1, emass T (fst x))) d).
      change (map (fun x : nat * Qc => emass T (fst x)) d) with (map (fun x : nat * Qc => mass (snd x, 1, emass T (fst x))) d). rewrite E. cbn [bind]. reflexivity.
    - exists 1. split; [reflexivity|]. unfold parts_of. cbn [bind weight]. do 2 f_equal. apply map_ext. intros p. field. discriminate. }
  set (ns := map (fun p => snd p / weight k (fst p) / s) d) in *. set (P := compose Nat.eqb (map fst d) ns) in *. exists P. split; [assumption|].
  assert (HU := fun p Hp => weight_pos k (fst p) (HM p Hp)).
  assert (forall g, wsum g P = qsum (map (fun p => g (fst p) * (snd p / weight k (fst p) / s)) d) /\ no_repeats Nat.eqb (map fst P) /\
    (forall e, In e (map fst P) -> In e (map fst d)) /\ (nonneg ns -> nonneg (map snd P))) as HW.
  { intros g. unfold P, compose. change (fold_left _ ?l []) with (steps Nat.eqb l []).
    assert (length (map fst d) = length ns) as HL by (unfold ns; now rewrite !map_length).
    destruct (steps_spec Nat.eqb (combine (map fst d) ns) [] g) as (S1 & S2 & S3 & S4).
    - constructor.
    - intros a b _ _ E. apply Nat.eqb_eq in E. now subst.
    - rewrite map_fst_combine in S3 by assumption. rewrite map_snd_combine in S4 by assumption. split; [|split; [assumption|split; [exact S3|]]].
      + rewrite S1. change (wsum g []) with 0. rewrite Qcplus_0_l. unfold ns. rewrite (combine_map (fun c => c)). apply wsum_map.
      + intros. apply S4; [constructor|assumption]. }
  destruct (HW (fun _ => 1)) as (W1 & W2 & W3 & W4). split; [assumption|].
  assert (nonneg (map snd P)) as NP.
  { apply W4. unfold nonneg, ns. rewrite Forall_map, Forall_forall. intros p Hp. apply div_nonneg; [|assumption]. apply div_nonneg; [now apply (nonneg_in d)|auto]. }
  split; [assumption|].
  assert (0 < total P) as TP.
  { rewrite total_wsum, W1. apply (sum_pos d snd); [intros; now apply (nonneg_in d)|assumption|intros p Hp Q|intros p Hp]; rewrite Qcmult_1_l.
    - apply div_pos; [|assumption]. apply div_pos; auto.
    - apply div_nonneg; [|assumption]. apply div_nonneg; [now apply (nonneg_in d)|auto]. }
  split; [assumption|].
  assert (forall p, In p P -> 0 < emass T (fst p)) as MP.
  { intros p Hp. assert (In (fst p) (map fst d)) as Hf by now apply W3, in_map. apply in_map_iff in Hf as (q & <- & Hq). auto. }
  split; [assumption|]. intros name dens. destruct (cfractions_eq {| cname := name; cparts := P; cdensity := dens |} k Hk NP TP MP) as [PW E]. cbn [cparts] in *.
  eexists. split; [exact E|].
  assert (wsum (weight k) P = total d / s) as EW.
  { rewrite (proj1 (HW (weight k))). unfold total. rewrite <- sum_div. apply sum_ext. intros p Hp. specialize (HU p Hp). apply pos_ne in HU, Hs. field. auto. }
  split.
  - rewrite total_wsum, wsum_map. rewrite (sum_ext P _ (fun p => weight k (fst p) * snd p / wsum (weight k) P)) by (intros; unfold Qcdiv; ring).
    rewrite sum_div. fold (wsum (weight k) P). apply pos_ne in PW. field. assumption.
  - intros e. rewrite share_wsum, wsum_map.
    rewrite (sum_ext P _ (fun p => (if Nat.eqb (fst p) e then weight k (fst p) else 0) * snd p / wsum (weight k) P)) by (intros; destruct (Nat.eqb _ _); unfold Qcdiv; ring).
    rewrite sum_div. fold (wsum (fun x => if Nat.eqb x e then weight k x else 0) P). rewrite (proj1 (HW _)).
    rewrite (sum_ext d _ (fun p => (if Nat.eqb (fst p) e then snd p else 0) / s)).
    + rewrite sum_div. fold (share Nat.eqb e d). rewrite EW. apply pos_ne in Hs, HT. field. auto.
    + intros p Hp. specialize (HU p Hp). apply pos_ne in HU, Hs. destruct (Nat.eqb _ _); field; auto.
Qed.

Lemma new_compound_is name d k density : k <> Volume -> nonneg (map snd d) -> 0 < total d -> (forall p, In p d -> 0 < emass T (fst p)) ->
  density <> Some 0 -> density <> None -> (forall q, density = Some q -> 0 < q) ->
  exists c F, new_compound T name (map fst d) (map snd d) k density = Ok c /\ real_compound T c /\ density = Some (cdensity c) /\
    cfractions T c k = Ok F /\ total F = 1 /\ forall e, share Nat.eqb e F = share Nat.eqb e d / total d.
Proof.
  intros Hk HN HT HM D1 D2 D3. destruct (parts_are d k Hk HN HT HM) as (P & EP & P1 & P2 & P3 & P4 & P5). destruct density as [q|]; [|contradiction].
  destruct (P5 name q) as (F & EF & TF & SF). exists {| cname := name; cparts := P; cdensity := q |}, F. split; [|split; [|auto]].
  - unfold new_compound. unfold parts_of in EP. destruct k; cbn [bind] in *; [|..].
    + destruct (frac_weight_to_mole _ _); [|discriminate]. cbn [bind] in *. injection EP as ->. destruct (Qc_eqb q 0) eqn:X; [qc_bool; congruence|reflexivity].
    + injection EP as ->. destruct (Qc_eqb q 0) eqn:X; [qc_bool; congruence|reflexivity].
    + contradiction.
  - exact (conj P1 (conj P2 (conj P3 (conj (D3 q eq_refl) P4)))).
Qed.

Lemma elements_added c new k density : k <> Volume -> real_compound T c -> nonneg (map snd new) -> total new <= 1 -> (forall p, In p new -> 0 < emass T (fst p)) ->
  exists F0 c' F, cfractions T c k = Ok F0 /\ addelements T c (map fst new) (map snd new) k density = Ok c' /\ cfractions T c' k = Ok F /\
    total F = 1 /\ no_repeats Nat.eqb (map fst F) /\ cname c' = cname c /\ (forall e, share Nat.eqb e F = (1 - total new) * share Nat.eqb e F0 + share Nat.eqb e new).
Proof.
  intros Hk (M1 & M2 & M3 & M4 & M5) HN HT HR. destruct (cfractions_eq c k Hk M2 M3 M5) as [P E].
  set (W := wsum (weight k) (cparts c)) in *.
  set (F0 := map (fun p => (fst p, weight k (fst p) * snd p / W)) (cparts c)) in *.
  assert (HU := fun p Hp => weight_pos k (fst p) (M5 p Hp)).
  assert (map fst F0 = map fst (cparts c)) as KF by (unfold F0; now rewrite map_map).
  assert (total F0 = 1) as TF.
  { unfold F0. rewrite total_wsum, wsum_map. rewrite (sum_ext (cparts c) _ (fun p => weight k (fst p) * snd p / W)) by (intros; unfold Qcdiv; ring).
    rewrite sum_div. fold (wsum (weight k) (cparts c)). fold W. apply pos_ne in P. field. assumption. }
  assert (nonneg (map snd F0)) as NF.
  { unfold F0, nonneg. rewrite map_map, Forall_map, Forall_forall. intros p Hp. cbn [snd]. apply div_nonneg; [|assumption]. apply mul_nonneg; [apply Qclt_le_weak; auto|now apply (nonneg_in (cparts c))]. }
  set (f := match k with Mole => cparts c | _ => F0 end).
  assert (map fst f = map fst (cparts c) /\ nonneg (map snd f) /\ 0 < total f /\ forall e, share Nat.eqb e f = total f * share Nat.eqb e F0) as (f1 & f2 & f3 & f4).
  { destruct k; [| |contradiction]; unfold f.
    - repeat split; try assumption; [rewrite TF; reflexivity|intros e; rewrite TF; ring].
    - repeat split; try assumption. intros e. unfold F0, share. rewrite map_map. cbn [fst snd weight].
      rewrite (sum_ext (cparts c) (fun x => if Nat.eqb (fst x) e then 1 * snd x / W else 0) (fun x => (if Nat.eqb (fst x) e then snd x else 0) / W)).
      + rewrite sum_div. assert (W = total (cparts c)) as <- by (rewrite total_wsum; reflexivity). apply pos_ne in P. clearbody W. field. assumption.
      + intros p _. destruct (Nat.eqb _ _); unfold Qcdiv; ring. }
  set (d := map (fun p => (fst p, (1 - total new) * snd p)) f ++ map (fun p => (fst p, total f * snd p)) new).
  assert (map fst d = map fst f ++ map fst new) as D1 by (unfold d; rewrite map_app, !map_map; reflexivity).
  assert (map snd d = map (fun q => (1 - total new) * q) (map snd f) ++ map (fun q => q * qsum (map snd f)) (map snd new)) as D2.
  { unfold d. rewrite map_app, !map_map. cbn [snd]. f_equal. apply map_ext. intros p. unfold total. ring. }
  assert (total d = total f) as TD by (unfold total at 1; rewrite D2; apply add_frac_sum).
  set (dens := match density with None => cdensity c | Some q => if Qc_eqb q 0 then cdensity c else q end).
  assert (addelements T c (map fst new) (map snd new) k density = let! P := parts_of (map fst d) (map snd d) k in Ok {| cname := cname c; cparts := P; cdensity := dens |}) as EA.
  { unfold addelements, parts_of. rewrite D1, D2. fold dens. destruct k; [| |contradiction]; cbn [cfractions] in E.
    - rewrite E. cbn [bind]. rewrite add_frac_eq by exact HT. cbn [bind]. unfold f. reflexivity.
    - rewrite add_frac_eq by exact HT. reflexivity. }
  destruct (parts_are d k Hk) as (PP & EP & P1 & P2 & P3 & P4 & P5).
  - unfold nonneg. rewrite D2, Forall_app, !Forall_map. split; rewrite Forall_forall; intros p Hp.
    + apply mul_nonneg; [qclra|now apply (nonneg_in f)].
    + apply mul_nonneg; [now apply (nonneg_in new)|]. apply Qclt_le_weak. exact f3.
  - rewrite TD. assumption.
  - intros p Hp. assert (In (fst p) (map fst d)) as Hf by now apply in_map. rewrite D1, f1 in Hf. apply in_app_iff in Hf as [Hf|Hf]; apply in_map_iff in Hf as (q & <- & Hq); auto.
  - destruct (P5 (cname c) dens) as (F & EF & TF' & SF). exists F0, {| cname := cname c; cparts := PP; cdensity := dens |}, F.
    split; [assumption|]. rewrite EA, EP. cbn [bind]. split; [reflexivity|]. split; [assumption|]. split; [assumption|]. split; [|split; [reflexivity|]].
    + destruct (cfractions_eq {| cname := cname c; cparts := PP; cdensity := dens |} k Hk P2 P3 P4) as [_ E']. rewrite E' in EF. injection EF as <-. rewrite map_map. exact P1.
    + intros e. rewrite SF, TD. unfold d. rewrite share_app, !share_scale, f4. apply pos_ne in f3. field. assumption.
Qed.
Lemma elements_refused c els fr k density : real_compound T c -> 1 < qsum fr \/ k = Volume -> addelements T c els fr k density = Err ValueError.
Proof.
  intros (M1 & M2 & M3 & M4 & M5) [H| ->]; [|reflexivity]. unfold addelements. destruct k; [| |reflexivity].
  - destruct (cfractions_eq c Mass ltac:(discriminate) M2 M3 M5) as [_ E]. cbn [cfractions] in E. rewrite E. cbn [bind]. now rewrite (proj2 (add_frac_spec _ fr) H).
  - now rewrite (proj2 (add_frac_spec _ fr) H).
Qed.

(* listing a compound twice *)
Lemma amounts_scale d k : nonneg (map snd d) -> 0 < total d -> (forall p, In p d -> real_compound T (fst p)) ->
  let s := match k with Mole => 1 | _ => qsum (map (fun p => snd p / per_mole T k (fst p)) d) end in
  0 < s /\ amounts T (map fst d) (map snd d) k = Ok (map (fun p => snd p / per_mole T k (fst p) / s) d).
Proof.
  intros H1 H2 H3. destruct (amounts_eq T d k H1 H2 H3) as (s & Hs & E). cbv zeta. destruct k.
  2:{ split; [reflexivity|]. cbn [amounts per_mole]. f_equal. apply map_ext. intros p. field. discriminate. }
  all: assert (s = qsum (map (fun p => snd p / per_mole T _ (fst p)) d)) as <-; [|split; assumption].
  - destruct (converted Mass Mole (map snd d) (map cdensity (map fst d)) (map (molarmass T) (map fst d))) as (g & t & Eg & _ & _ & Sg & _); [discriminate| |].
    + repeat split; rewrite ?map_length; try reflexivity; try assumption; unfold positive; rewrite !Forall_map, Forall_forall; intros p Hp.
      * now destruct (H3 p Hp) as (_ & _ & _ & D & _).
      * apply molarmass_pos. auto.
    + cbn [conv amounts] in *. rewrite E in Eg. injection Eg as <-. rewrite sum_div in Sg. apply pos_ne in Hs.
      set (x := qsum _) in *. clearbody x. rewrite <- (Qcmult_1_l s), <- Sg. field. assumption.
  - destruct (converted Volume Mole (map snd d) (map cdensity (map fst d)) (map (molarmass T) (map fst d))) as (g & t & Eg & _ & _ & Sg & _); [discriminate| |].
    + repeat split; rewrite ?map_length; try reflexivity; try assumption; unfold positive; rewrite !Forall_map, Forall_forall; intros p Hp.
      * now destruct (H3 p Hp) as (_ & _ & _ & D & _).
      * apply molarmass_pos. auto.
    + cbn [conv amounts] in *. rewrite E in Eg. injection Eg as <-. rewrite sum_div in Sg. apply pos_ne in Hs.
      set (x := qsum _) in *. clearbody x. rewrite <- (Qcmult_1_l s), <- Sg. field. assumption.
Qed.
Lemma listed_twice c a b d k : 0 <= a -> 0 <= b -> nonneg (map snd d) -> 0 < a + b + total d -> real_compound T c -> (forall p, In p d -> real_compound T (fst p)) ->
  new_mixture T (c :: c :: map fst d) (a :: b :: map snd d) k = new_mixture T (c :: map fst d) ((a + b) :: map snd d) k.
Proof.
  intros Ha Hb HN HT HC HR.
  assert (0 <= a + b) as HS by qclra.
  assert (forall p, In p ((c, a) :: (c, b) :: d) -> real_compound T (fst p)) as R1 by (intros p [<-|[<-|H]]; cbn [fst]; auto).
  assert (forall p, In p ((c, a + b) :: d) -> real_compound T (fst p)) as R2 by (intros p [<-|H]; cbn [fst]; auto).
  assert (total ((c, a) :: (c, b) :: d) = a + b + total d) as T1 by (unfold total; cbn [map snd]; change (qsum (?u :: ?v)) with (u + qsum v); change (qsum (?u :: ?v)) with (u + qsum v); ring).
  assert (total ((c, a + b) :: d) = a + b + total d) as T2 by (unfold total; cbn [map snd]; change (qsum (?u :: ?v)) with (u + qsum v); ring).
  destruct (amounts_scale ((c, a) :: (c, b) :: d) k) as [P1 E1]; [repeat constructor; assumption|now rewrite T1|assumption|].
  destruct (amounts_scale ((c, a + b) :: d) k) as [P2 E2]; [constructor; [exact HS|assumption]|now rewrite T2|assumption|].
  set (s1 := match k with Mole => 1 | _ => _ end) in P1, E1. set (s2 := match k with Mole => 1 | _ => _ end) in P2, E2.
  assert (N := pos_ne _ (per_mole_pos T k c HC)).
  assert (s1 = s2) as ES.
  { unfold s1, s2. destruct k; cbn [map fst snd]; [|reflexivity|]; change (qsum (?u :: ?v)) with (u + qsum v); change (qsum (?u :: ?v)) with (u + qsum v); unfold Qcdiv; ring. }
  cbn [map fst snd] in E1, E2. unfold new_mixture. rewrite E1, E2. cbn [bind]. rewrite <- ES. f_equal. unfold compose. cbn [combine fold_left fst snd dict_add].
  assert (compound_eqb c c = true) as -> by now apply compound_eqb_name. apply pos_ne in P1. clearbody s1.
  assert (a / per_mole T k c / s1 + b / per_mole T k c / s1 = (a + b) / per_mole T k c / s1) as -> by (field; auto). reflexivity.
Qed.

(* multielementbase.setfraction *)
Lemma setfraction_fails m cs v k : real_mixture T m -> (forall c, In c cs -> exists p, In p m /\ cname (fst p) = cname c) ->
  (exists p, In p m /\ forall c, In c cs -> cname c <> cname (fst p)) -> no_repeats compound_eqb cs -> setfraction T m cs v k = Err TypeError.
Proof.
  intros (M1 & M2 & M3 & M4) HI (p & Hp & Hc) HR. unfold setfraction.
  assert (forallb (fun c => existsb (fun p => compound_eqb c (fst p)) m) cs = true) as ->.
  { apply forallb_forall. intros c Hin. destruct (HI c Hin) as (q & Hq & E). apply existsb_exists. exists q. split; [assumption|]. now apply compound_eqb_name. }
  cbn [negb]. destruct (fractions_eq T m k M2 M3 M4) as [_ E]. rewrite E. cbn [bind].
  assert (repeated cs = false) as ->.
  { clear - HR. induction cs as [|c cs IH]; [reflexivity|]. inversion_clear HR. cbn [repeated]. rewrite IH by assumption. rewrite orb_false_r.
    destruct (existsb (compound_eqb c) cs) eqn:X; [|reflexivity]. apply existsb_exists in X as (x & Hx & X). rewrite Forall_forall in H. rewrite (H x Hx) in X. discriminate. }
  assert (existsb (fun q => negb (existsb (fun c => compound_eqb c (fst q)) cs)) (map (fun p => (fst p, snd p * per_mole T k (fst p) / wsum (per_mole T k) m)) m) = true) as ->; [|reflexivity].
  apply existsb_exists. eexists. split; [apply in_map_iff; exists p; split; [reflexivity|assumption]|]. cbn [fst].
  apply negb_true_iff. destruct (existsb (fun c => compound_eqb c (fst p)) cs) eqn:X; [|reflexivity]. apply existsb_exists in X as (c & Hin & X). apply compound_eqb_name in X. now apply Hc in Hin.
Qed.
End Elements.
Lemma brine_real : real_mixture ex_T ex_brine.
Proof.
  split; [repeat constructor|]. split; [repeat constructor; discriminate|]. split; [reflexivity|].
  intros p [<-|[<-|[]]]; (split; [repeat constructor|split; [repeat constructor; discriminate|split; [reflexivity|split; [reflexivity|]]]]);
    intros q [<-|[<-|[]]]; reflexivity.
Qed.
Definition ex_differ : bool :=
  match tocompound ex_T "brine" ex_brine with
  | Ok c => match elemental_molefractions ex_T ex_brine, cmolefractions c with
            | Ok F, Ok F' => negb (Qc_eqb (share Nat.eqb 1%nat F) (share Nat.eqb 1%nat F'))
            | _, _ => false end
  | Err _ => false end.
Lemma molefractions_differ : exists T name m c F F' e, real_mixture T m /\ tocompound T name m = Ok c /\
  elemental_molefractions T m = Ok F /\ cmolefractions c = Ok F' /\ share Nat.eqb e F <> share Nat.eqb e F'.
Proof.
  assert (ex_differ = true) as H by (vm_compute; reflexivity). unfold ex_differ in H.
  destruct (tocompound ex_T "brine" ex_brine) as [c|] eqn:Ec; [|discriminate]. destruct (elemental_molefractions ex_T ex_brine) as [F|] eqn:EF; [|discriminate].
  destruct (cmolefractions c) as [F'|] eqn:EF'; [|discriminate]. exists ex_T, "brine"%string, ex_brine, c, F, F', 1%nat.
  split; [exact brine_real|]. split; [exact Ec|]. split; [exact EF|]. split; [exact EF'|]. intros E. rewrite E in H. apply negb_true_iff in H. qc_bool. now apply H.
Qed.
