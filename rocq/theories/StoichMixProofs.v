From Verif Require Import StoichModel StoichSpec FitProofs MatProofs StoichProofs.
Local Open Scope Qc_scope.

(* ---- densities ---- *)
Lemma qdiv_ok a b : b <> 0 -> qdiv a b = Ok (a / b).
Proof. intros H. unfold qdiv. destruct (Qc_eqb b 0) eqn:E; [qc_bool; contradiction|reflexivity]. Qed.
Lemma densities w rho MM : valid w rho MM -> qsum w = 1 ->
  exists n v d, conv Mass Mole w rho MM = Ok n /\ conv Mass Volume w rho MM = Ok v /\
    density_from_massfrac w rho = Ok d /\ density_from_molefrac n rho MM = Ok d /\ density_from_volumefrac v rho = Ok d /\
    0 < d /\ (forall lo, Forall (Qcle lo) rho -> lo <= d) /\ (forall hi, Forall (fun r => r <= hi) rho -> d <= hi) /\
    d * qsum (map (fun p => fst p / snd p) (combine w rho)) = 1 /\
    exists M, molarmass_from_wfrac w MM = Ok M /\ M = qsum (map (fun p => fst p * snd p) (combine n MM)).
Proof.
  intros HV H1. destruct (valid_good _ _ _ HV) as (l & -> & -> & -> & HG).
  eexists _, _, (1 / qsum (map (fun c => given c / dens c) l)). split; [apply conv_ok; [discriminate|assumption]|]. split; [apply conv_ok; [discriminate|assumption]|].
  assert (T1 := total_pos Mass Mole l HG). assert (T2 := total_pos Mass Volume l HG). destruct HG as (G1 & G2 & G3 & G4).
  assert (D := fun c Hc => pos_ne _ (G3 c Hc)). assert (M := fun c Hc => pos_ne _ (G4 c Hc)).
  rewrite (sum_ext l (am Mass Volume) (fun c => given c / dens c)) in * by (intros c Hc; specialize (D c Hc); specialize (M c Hc); unfold am, amount; field; auto).
  rewrite (sum_ext l (am Mass Mole) (fun c => given c / mass c)) in * by reflexivity.
  set (S := qsum (map (fun c => given c / dens c) l)) in *. set (S' := qsum (map (fun c => given c / mass c) l)) in *.
  assert (N := pos_ne _ T2). assert (N' := pos_ne _ T1).
  split; [|split; [|split; [|split; [|split; [|split; [|split]]]]]].
  - unfold density_from_massfrac. rewrite divs_map by assumption. cbn [bind]. fold S. now rewrite qdiv_ok.
  - unfold density_from_molefrac. rewrite times_map. cbn [bind]. rewrite divs_map by assumption. cbn [bind].
    assert (qsum (map (fun c => am Mass Mole c / S' * mass c / dens c) l) = S / S') as E1.
    { unfold S. rewrite <- sum_div. apply sum_ext. intros c Hc. specialize (D c Hc). specialize (M c Hc). unfold am, amount. field. auto. }
    assert (qsum (map (fun c => am Mass Mole c / S' * mass c) l) = 1 / S') as E2.
    { rewrite <- H1, <- sum_div. apply sum_ext. intros c Hc. specialize (M c Hc). unfold am, amount. field. auto. }
    rewrite E1, E2. clearbody S S'. rewrite qdiv_ok; [f_equal; field; auto|]. apply pos_ne. now apply div_pos.
  - unfold density_from_volumefrac. rewrite times_map. cbn [bind]. f_equal. rewrite <- H1, <- sum_div. apply sum_ext. intros c Hc.
    specialize (D c Hc). specialize (M c Hc). unfold am, amount. clearbody S. field. auto.
  - now apply div_pos.
  - intros lo HL. rewrite Forall_map, Forall_forall in HL.
    assert (lo * S <= 1) as K.
    { rewrite <- H1. unfold S. rewrite <- sum_scale. assert (0 <= qsum (map (fun c => given c * (dens c - lo) / dens c) l)) as P.
      { apply sum_nonneg. intros c Hc. apply div_nonneg; [|now apply G3]. apply mul_nonneg; [now apply G1|]. specialize (HL c Hc). qclra. }
      assert (qsum (map given l) = qsum (map (fun c => lo * (given c / dens c)) l) + qsum (map (fun c => given c * (dens c - lo) / dens c) l)) as E.
      { rewrite <- sum_add. apply sum_ext. intros c Hc. specialize (D c Hc). field. assumption. }
      rewrite E. qclra. }
    assert (1 / S * S = 1) as K2 by (field; assumption). clearbody S. clear - K K2 T2. generalize dependent (1 / S). intros d K2. destruct (Qclt_le_dec d lo); [|assumption]. exfalso. qcnra.
  - intros hi HL. rewrite Forall_map, Forall_forall in HL.
    assert (1 <= hi * S) as K.
    { rewrite <- H1. unfold S. rewrite <- sum_scale. assert (0 <= qsum (map (fun c => given c * (hi - dens c) / dens c) l)) as P.
      { apply sum_nonneg. intros c Hc. apply div_nonneg; [|now apply G3]. apply mul_nonneg; [now apply G1|]. specialize (HL c Hc). cbn in HL. qclra. }
      assert (qsum (map (fun c => hi * (given c / dens c)) l) = qsum (map given l) + qsum (map (fun c => given c * (hi - dens c) / dens c) l)) as E.
      { rewrite <- sum_add. apply sum_ext. intros c Hc. specialize (D c Hc). field. assumption. }
      rewrite E. qclra. }
    assert (1 / S * S = 1) as K2 by (field; assumption). clearbody S. clear - K K2 T2. generalize dependent (1 / S). intros d K2. destruct (Qclt_le_dec hi d); [|assumption]. exfalso. qcnra.
  - assert (qsum (map (fun p => fst p / snd p) (combine (map given l) (map dens l))) = S) as ->; [|field; assumption].
    unfold S. clear. induction l as [|c l IH]; [reflexivity|]. cbn [map combine qsum fold_right fst snd]. unfold qsum in IH. now rewrite IH.
  - exists (1 / S'). split.
    + unfold molarmass_from_wfrac. rewrite divs_map by assumption. cbn [bind]. fold S'. now rewrite qdiv_ok.
    + transitivity (qsum (map (fun c => am Mass Mole c / S' * mass c) l)).
      * rewrite <- H1, <- sum_div. apply sum_ext. intros c Hc. specialize (M c Hc). unfold am, amount. clearbody S'. field. auto.
      * clear. clearbody S'. induction l as [|c l IH]; [reflexivity|]. cbn [map combine qsum fold_right fst snd]. unfold qsum in IH. now rewrite IH.
Qed.

(* ---- adding fractions ---- *)
Lemma qsum_app x y : qsum (x ++ y) = qsum x + qsum y.
Proof. induction x as [|a x IH]; [change (qsum y = 0 + qsum y); ring|]. change (a + qsum (x ++ y) = a + qsum x + qsum y). rewrite IH. ring. Qed.
Lemma add_frac_eq x new : qsum new <= 1 -> add_frac x new = Ok (map (fun q => (1 - qsum new) * q) x ++ map (fun q => q * qsum x) new).
Proof.
  intros H. unfold add_frac. destruct (Qc_ltb 1 (qsum new)) eqn:E; [qc_bool; exfalso; qclra|]. f_equal. f_equal. unfold scale.
  assert (Qc_max (1 - qsum new) 0 = 1 - qsum new) as ->; [|reflexivity]. unfold Qc_max. destruct (Qc_leb _ 0) eqn:E'; [|reflexivity]. qc_bool. qclra.
Qed.
Lemma sum_id (l : list Qc) : qsum (map (fun q => q) l) = qsum l.
Proof. now rewrite map_id. Qed.
Lemma add_frac_sum x new : qsum (map (fun q => (1 - qsum new) * q) x ++ map (fun q => q * qsum x) new) = qsum x.
Proof.
  rewrite qsum_app, (sum_scale x (1 - qsum new) (fun q => q)), sum_id.
  rewrite (sum_ext new (fun q => q * qsum x) (fun q => qsum x * q)) by (intros; ring). rewrite sum_scale, sum_id. ring.
Qed.
Lemma add_frac_spec x new :
  (qsum new <= 1 -> exists y, add_frac x new = Ok y /\ length y = (length x + length new)%nat /\ qsum y = qsum x /\
    (forall i, (i < length x)%nat -> nth i y 0 = (1 - qsum new) * nth i x 0) /\
    (forall j, (j < length new)%nat -> nth (length x + j) y 0 = nth j new 0 * qsum x)) /\
  (1 < qsum new -> add_frac x new = Err ValueError).
Proof.
  split.
  - intros H. eexists. split; [now apply add_frac_eq|]. rewrite app_length, !map_length. split; [reflexivity|]. split; [apply add_frac_sum|]. split.
    + intros i Hi. rewrite app_nth1 by now rewrite map_length. now rewrite (nth_map_0 _ x 0).
    + intros j Hj. rewrite app_nth2 by (rewrite map_length; lia). rewrite map_length. replace (length x + j - length x)%nat with j by lia.
      now rewrite (nth_map_0 _ new 0).
  - intros H. unfold add_frac. destruct (Qc_ltb 1 (qsum new)) eqn:E; [reflexivity|]. qc_bool. qclra.
Qed.

(* ---- dicts ---- *)
Section Dict.
Context {K : Type} (eqb : K -> K -> bool).
Definition wsum (g : K -> Qc) (d : list (K * Qc)) : Qc := qsum (map (fun p => g (fst p) * snd p) d).
Lemma wsum_cons g p d : wsum g (p :: d) = g (fst p) * snd p + wsum g d.
Proof. reflexivity. Qed.
Lemma wsum_app g d d' : wsum g (d ++ d') = wsum g d + wsum g d'.
Proof. unfold wsum. now rewrite map_app, qsum_app. Qed.
Lemma wsum_dict_add g d k v : (forall k', In k' (map fst d) -> eqb k' k = true -> g k' = g k) ->
  wsum g (dict_add eqb d k v) = wsum g d + g k * v.
Proof.
  induction d as [|[k' v'] d IH]; intros H; cbn [dict_add].
  - rewrite wsum_cons. change (wsum g []) with 0. cbn [fst snd]. ring.
  - destruct (eqb k' k) eqn:E.
    + rewrite !wsum_cons. cbn [fst snd]. rewrite (H k') by (try assumption; now left). ring.
    + rewrite !wsum_cons, IH by (intros; apply H; [now right|assumption]). ring.
Qed.
Lemma dict_add_keys d k v k' : In k' (map fst (dict_add eqb d k v)) -> k' = k \/ In k' (map fst d).
Proof.
  induction d as [|[c w] d IH]; cbn [dict_add map fst].
  - intros [<-|[]]. now left.
  - destruct (eqb c k); cbn [map fst In]; [tauto|]. intros [<-|H]; [right; now left|]. destruct (IH H); tauto.
Qed.
Lemma dict_add_nonneg d k v : nonneg (map snd d) -> 0 <= v -> nonneg (map snd (dict_add eqb d k v)).
Proof.
  unfold nonneg. induction d as [|[c w] d IH]; cbn [dict_add map snd]; intros H Hv.
  - constructor; [assumption|constructor].
  - inversion_clear H. destruct (eqb c k); cbn [map snd]; constructor; auto. cbn in *. qclra.
Qed.
Lemma dict_add_norep d k v : no_repeats eqb (map fst d) -> no_repeats eqb (map fst (dict_add eqb d k v)).
Proof.
  unfold no_repeats. induction d as [|[c w] d IH]; cbn [dict_add map fst]; intros H.
  - repeat constructor.
  - inversion_clear H. destruct (eqb c k) eqn:E; cbn [map fst]; constructor; auto.
    rewrite Forall_forall in *. intros x Hx. apply dict_add_keys in Hx as [->|Hx]; auto.
Qed.
Lemma dict_add_new d k v : (forall k', In k' (map fst d) -> eqb k' k = false) -> dict_add eqb d k v = d ++ [(k, v)].
Proof.
  induction d as [|[c w] d IH]; intros H; [reflexivity|]. cbn [dict_add app]. rewrite (H c) by now left. rewrite IH; [reflexivity|]. intros; apply H; now right.
Qed.
Definition steps (l : list (K * Qc)) (d : list (K * Qc)) : list (K * Qc) := fold_left (fun d p => dict_add eqb d (fst p) (snd p)) l d.
Lemma steps_spec l d g : no_repeats eqb (map fst d) -> 
  (forall a b, In a (map fst d ++ map fst l) -> In b (map fst d ++ map fst l) -> eqb a b = true -> g a = g b) ->
  wsum g (steps l d) = wsum g d + wsum g l /\ no_repeats eqb (map fst (steps l d)) /\
  (forall k, In k (map fst (steps l d)) -> In k (map fst d ++ map fst l)) /\
  (nonneg (map snd d) -> nonneg (map snd l) -> nonneg (map snd (steps l d))).
Proof.
  revert d. induction l as [|[k v] l IH]; intros d HN HG; cbn [steps fold_left fst snd].
  - split; [change (wsum g []) with 0; ring|]. split; [assumption|]. split; [intros; apply in_app_iff; now left|auto].
  - change (fold_left (fun d p => dict_add eqb d (fst p) (snd p)) l (dict_add eqb d k v)) with (steps l (dict_add eqb d k v)).
    assert (forall x, In x (map fst (dict_add eqb d k v) ++ map fst l) -> In x (map fst d ++ map fst ((k, v) :: l))) as HI.
    { intros x. rewrite !in_app_iff. cbn [map fst In]. intros [H|H]; [|tauto]. apply dict_add_keys in H as [->|H]; tauto. }
    destruct (IH (dict_add eqb d k v)) as (I1 & I2 & I3 & I4).
    + now apply dict_add_norep.
    + intros a b Ha Hb. apply HG; auto.
    + split; [|split; [assumption|split; [auto|]]].
      * rewrite I1, wsum_dict_add, wsum_cons; [cbn [fst snd]; ring|]. intros k' Hk E. apply HG; [apply in_app_iff; now left| |assumption].
        apply in_app_iff. right. now left.
      * intros Hd Hl. cbn [map snd] in Hl. inversion_clear Hl. apply I4; [|assumption]. now apply dict_add_nonneg.
Qed.
Lemma steps_new l d : no_repeats eqb (map fst d ++ map fst l) -> steps l d = d ++ l.
Proof.
  revert d. induction l as [|[k v] l IH]; intros d H; cbn [steps fold_left fst snd]; [now rewrite app_nil_r|].
  change (steps l (dict_add eqb d k v) = d ++ (k, v) :: l). rewrite dict_add_new.
  - rewrite IH; [now rewrite <- app_assoc|]. rewrite map_app. cbn [map fst]. rewrite <- app_assoc. exact H.
  - intros k' Hk. clear IH. unfold no_repeats in H. induction d as [|[c w] d IHd]; [destruct Hk|]. cbn [map fst app] in *. inversion_clear H.
    destruct Hk as [<-|Hk]; [|now apply IHd]. rewrite Forall_forall in H0. apply H0. apply in_app_iff. right. now left.
Qed.
End Dict.
Lemma map_fst_combine {A B} (x : list A) (y : list B) : length x = length y -> map fst (combine x y) = x.
Proof. revert y. induction x as [|a x IH]; intros [|b y]; try discriminate; [reflexivity|]. cbn. intros H. f_equal. apply IH. lia. Qed.
Lemma map_snd_combine {A B} (x : list A) (y : list B) : length x = length y -> map snd (combine x y) = y.
Proof. revert y. induction x as [|a x IH]; intros [|b y]; try discriminate; [reflexivity|]. cbn. intros H. f_equal. apply IH. lia. Qed.
Lemma compound_eqb_name a b : compound_eqb a b = true <-> cname a = cname b.
Proof. unfold compound_eqb. apply String.eqb_eq. Qed.
Lemma wsum_ext {K} (g g' : K -> Qc) d : (forall k, In k (map fst d) -> g k = g' k) -> wsum g d = wsum g' d.
Proof. intros H. apply sum_ext. intros p Hp. rewrite H; [reflexivity|]. now apply in_map. Qed.
Lemma share_wsum {K} (eqb : K -> K -> bool) k d : share eqb k d = wsum (fun x => if eqb x k then 1 else 0) d.
Proof. unfold share, wsum. apply sum_ext. intros p _. destruct (eqb _ _); ring. Qed.
Lemma total_wsum {K} (d : list (K * Qc)) : total d = wsum (fun _ => 1) d.
Proof. unfold total, wsum. apply sum_ext. intros p _. ring. Qed.
