From Verif Require Import StoichModel StoichSpec FitProofs MatProofs.
Local Open Scope Qc_scope.

(* ---- lists as maps over one list of components ---- *)
Definition comp : Type := (Qc * Qc * Qc)%type.
Definition given (c : comp) : Qc := fst (fst c).
Definition dens (c : comp) : Qc := snd (fst c).
Definition mass (c : comp) : Qc := snd c.
Lemma as_comps f rho MM : length rho = length f -> length MM = length f ->
  exists l, f = map given l /\ rho = map dens l /\ MM = map mass l.
Proof.
  revert rho MM. induction f as [|a f IH]; intros [|r rho] [|m MM]; try discriminate; intros H1 H2.
  - now exists [].
  - destruct (IH rho MM) as (l & -> & -> & ->); [cbn in *; lia..|]. now exists ((a, r, m) :: l).
Qed.
Section Maps.
Context {A : Type}.
Implicit Types l : list A.
Lemma times_map l (f g : A -> Qc) : times (map f l) (map g l) = Ok (map (fun c => f c * g c) l).
Proof.
  unfold times. rewrite !map_length, Nat.eqb_refl. f_equal. induction l as [|c l IH]; [reflexivity|]. cbn [map combine fst snd]. now rewrite IH.
Qed.
Lemma divs_map l (f g : A -> Qc) : (forall c, In c l -> g c <> 0) -> divs (map f l) (map g l) = Ok (map (fun c => f c / g c) l).
Proof.
  intros H. unfold divs. rewrite !map_length, Nat.eqb_refl. cbn [negb].
  destruct (existsb _ (map g l)) eqn:E.
  - apply existsb_exists in E as (q & Hq & Hz). apply in_map_iff in Hq as (c & <- & Hc). qc_bool. now destruct (H c Hc).
  - f_equal. clear H E. induction l as [|c l IH]; [reflexivity|]. cbn [map combine fst snd]. now rewrite IH.
Qed.
Lemma scale_map l a (g : A -> Qc) : scale a (map g l) = map (fun c => a * g c) l.
Proof. unfold scale. now rewrite map_map. Qed.
Lemma div1_map l (f : A -> Qc) s : s <> 0 -> div1 (map f l) s = Ok (map (fun c => f c / s) l).
Proof. intros H. unfold div1. destruct (Qc_eqb s 0) eqn:E; [qc_bool; contradiction|]. cbn [andb]. now rewrite map_map. Qed.
Lemma sum_ext l (f g : A -> Qc) : (forall c, In c l -> f c = g c) -> qsum (map f l) = qsum (map g l).
Proof. induction l as [|c l IH]; intros H; [reflexivity|]. cbn [map qsum fold_right]. unfold qsum in IH. rewrite IH, H; [reflexivity|now left|intros; apply H; now right]. Qed.
Lemma sum_scale l a (f : A -> Qc) : qsum (map (fun c => a * f c) l) = a * qsum (map f l).
Proof. induction l as [|c l IH]; [cbn; ring|]. cbn [map qsum fold_right]. unfold qsum in IH. rewrite IH. ring. Qed.
Lemma sum_div l a (f : A -> Qc) : qsum (map (fun c => f c / a) l) = qsum (map f l) / a.
Proof.
  rewrite (sum_ext l _ (fun c => / a * f c)) by (intros; unfold Qcdiv; ring). rewrite sum_scale. unfold Qcdiv. ring.
Qed.
Lemma sum_add l (f g : A -> Qc) : qsum (map (fun c => f c + g c) l) = qsum (map f l) + qsum (map g l).
Proof. induction l as [|c l IH]; [cbn; ring|]. cbn [map qsum fold_right]. unfold qsum in IH. rewrite IH. ring. Qed.
Lemma sum_nonneg l (f : A -> Qc) : (forall c, In c l -> 0 <= f c) -> 0 <= qsum (map f l).
Proof. intros H. apply qsum_nonneg. intros q Hq. apply in_map_iff in Hq as (c & <- & Hc). auto. Qed.
(* positive factors keep a positive sum positive *)
Lemma sum_pos l (f g : A -> Qc) : (forall c, In c l -> 0 <= f c) -> 0 < qsum (map f l) ->
  (forall c, In c l -> 0 < f c -> 0 < g c) -> (forall c, In c l -> 0 <= g c) -> 0 < qsum (map g l).
Proof.
  intros Hf Hs Hp Hg. assert (N := sum_nonneg l g Hg). destruct (Qc_eq_or (qsum (map g l)) 0) as [E|E]; [|qclra]. exfalso.
  assert (forall c, In c l -> g c = 0) as Z0.
  { intros c Hc. refine (qsum_zero_all (map g l) _ E (g c) _); [|now apply in_map]. intros q Hq. apply in_map_iff in Hq as (x & <- & Hx). auto. }
  assert (qsum (map f l) = 0) as F0.
  { rewrite (sum_ext l f (fun _ => 0)); [clear; induction l as [|c l IH]; [reflexivity|]; cbn [map qsum fold_right]; unfold qsum in IH; rewrite IH; ring|].
    intros c Hc. destruct (Qc_eq_or (f c) 0) as [|X]; [assumption|]. exfalso. assert (0 < f c) as P by (specialize (Hf c Hc); qclra).
    specialize (Hp c Hc P). rewrite (Z0 c Hc) in Hp. discriminate. }
  rewrite F0 in Hs. discriminate.
Qed.
End Maps.
Lemma map_eq_in {A B} (f g : A -> B) l : (forall c, In c l -> f c = g c) -> map f l = map g l.
Proof. apply map_ext_in. Qed.

Definition good (l : list comp) : Prop :=
  (forall c, In c l -> 0 <= given c) /\ 0 < qsum (map given l) /\ (forall c, In c l -> 0 < dens c) /\ (forall c, In c l -> 0 < mass c).
Lemma valid_good f rho MM : valid f rho MM -> exists l, f = map given l /\ rho = map dens l /\ MM = map mass l /\ good l.
Proof.
  intros (H1 & H2 & H3 & H4 & H5 & H6). destruct (as_comps f rho MM H1 H2) as (l & -> & -> & ->). exists l. repeat split; try assumption.
  all: unfold nonneg, positive in *; rewrite Forall_map, Forall_forall in *; auto.
Qed.
Definition am (a b : kind) (c : comp) : Qc := amount a b (given c) (dens c) (mass c).
Lemma am_given a c : 0 < dens c -> 0 < mass c -> am a a c = given c.
Proof.
  intros H1 H2. assert (dens c <> 0) by (intros X; rewrite X in H1; discriminate). assert (mass c <> 0) by (intros X; rewrite X in H2; discriminate).
  unfold am, amount. destruct a; field; auto.
Qed.
Definition pos_ne (q : Qc) (H : 0 < q) : q <> 0. intros X. rewrite X in H. discriminate. Qed.
Lemma mul_pos p q : 0 < p -> 0 < q -> 0 < p * q.
Proof. intros. qcnra. Qed.
Lemma mul_nonneg p q : 0 <= p -> 0 <= q -> 0 <= p * q.
Proof. intros. qcnra. Qed.
Lemma inv_pos p : 0 < p -> 0 < / p.
Proof. intros H. assert (N := pos_ne p H). assert (p * / p = 1) as E by (field; assumption). generalize dependent (/ p). intros i E. destruct (Qclt_le_dec 0 i); [assumption|]. exfalso. qcnra. Qed.
Lemma div_pos p q : 0 < p -> 0 < q -> 0 < p / q.
Proof. intros. unfold Qcdiv. apply mul_pos; [assumption|now apply inv_pos]. Qed.
Lemma div_nonneg p q : 0 <= p -> 0 < q -> 0 <= p / q.
Proof. intros. unfold Qcdiv. apply mul_nonneg; [assumption|]. apply Qclt_le_weak. now apply inv_pos. Qed.
Lemma am_nonneg a b c : 0 <= given c -> 0 < dens c -> 0 < mass c -> 0 <= am a b c.
Proof. intros. unfold am, amount. destruct a, b; repeat first [apply div_nonneg|apply mul_nonneg|assumption|apply Qclt_le_weak; assumption]. Qed.
Lemma am_pos a b c : 0 < given c -> 0 < dens c -> 0 < mass c -> 0 < am a b c.
Proof. intros. unfold am, amount. destruct a, b; repeat first [apply div_pos|apply mul_pos|assumption]. Qed.
Lemma am_trans a b d c s : 0 < dens c -> 0 < mass c -> s <> 0 ->
  amount b d (am a b c / s) (dens c) (mass c) = am a d c / s.
Proof.
  intros H1 H2 Hs. apply pos_ne in H1, H2. unfold am, amount. destruct a, b, d; field; auto.
Qed.
Lemma total_pos a b l : good l -> 0 < qsum (map (am a b) l).
Proof.
  intros (H1 & H2 & H3 & H4). apply (sum_pos l given); auto; intros; [apply am_pos|apply am_nonneg]; auto.
Qed.

Lemma conv_ok a b l : a <> b -> good l ->
  conv a b (map given l) (map dens l) (map mass l) = Ok (map (fun c => am a b c / qsum (map (am a b) l)) l).
Proof.
  intros Hab HG. assert (HT := total_pos a b l HG). destruct HG as (H1 & H2 & H3 & H4).
  assert (D := fun c Hc => pos_ne _ (H3 c Hc)). assert (M := fun c Hc => pos_ne _ (H4 c Hc)). assert (N := pos_ne _ HT).
  assert (SW : forall a' b', a = a' -> b = b' -> forall F, (forall c, In c l -> F c = am a b c) -> qsum (map F l) = qsum (map (am a' b') l)).
  { intros a' b' <- <- F HF. now apply sum_ext. }
  destruct a, b; try contradiction; cbn [conv].
  - (* mass to mole *) unfold frac_weight_to_mole. rewrite divs_map by assumption. cbn [bind].
    rewrite (SW Mass Mole eq_refl eq_refl (fun c => given c / mass c)) by reflexivity.
    set (s := qsum _) in *. rewrite scale_map, divs_map by (intros c Hc X; apply Qcmult_integral in X as [X|X]; [contradiction|now apply (M c Hc)]).
    f_equal. apply map_ext_in. intros c Hc. specialize (M c Hc). unfold am, amount. field. auto.
  - (* mass to volume *) unfold frac_weight_to_volume. rewrite divs_map by assumption. cbn [bind].
    rewrite (SW Mass Volume eq_refl eq_refl (fun c => given c / dens c)) by (intros c Hc; specialize (M c Hc); specialize (D c Hc); unfold am, amount; field; auto).
    set (s := qsum _) in *. rewrite scale_map, divs_map by (intros c Hc X; apply Qcmult_integral in X as [X|X]; [contradiction|now apply (D c Hc)]).
    f_equal. apply map_ext_in. intros c Hc. specialize (M c Hc). specialize (D c Hc). unfold am, amount. field. auto.
  - (* mole to mass *) unfold frac_mole_to_weight. rewrite times_map. cbn [bind].
    rewrite (SW Mole Mass eq_refl eq_refl (fun c => given c * mass c)) by reflexivity. now rewrite div1_map by assumption.
  - (* mole to volume *) unfold frac_mole_to_volume. rewrite times_map. cbn [bind]. rewrite divs_map by assumption. cbn [bind].
    rewrite (SW Mole Volume eq_refl eq_refl (fun c => given c * mass c / dens c)) by reflexivity.
    set (s := qsum _) in *. rewrite scale_map, divs_map by (intros c Hc X; apply Qcmult_integral in X as [X|X]; [contradiction|now apply (D c Hc)]).
    f_equal. apply map_ext_in. intros c Hc. specialize (D c Hc). unfold am, amount. field. auto.
  - (* volume to mass *) unfold frac_volume_to_weight. rewrite times_map. cbn [bind].
    rewrite (SW Volume Mass eq_refl eq_refl (fun c => given c * dens c)) by (intros c Hc; specialize (M c Hc); unfold am, amount; field; auto).
    rewrite div1_map by assumption. f_equal. apply map_ext_in. intros c Hc. specialize (M c Hc). unfold am, amount. field. auto.
  - (* volume to mole *) unfold frac_volume_to_mole. rewrite times_map. cbn [bind]. rewrite divs_map by assumption. cbn [bind].
    rewrite (SW Volume Mole eq_refl eq_refl (fun c => given c * dens c / mass c)) by reflexivity.
    set (s := qsum _) in *. rewrite scale_map, divs_map by (intros c Hc X; apply Qcmult_integral in X as [X|X]; [contradiction|now apply (M c Hc)]).
    f_equal. apply map_ext_in. intros c Hc. specialize (M c Hc). unfold am, amount. field. auto.
Qed.

Lemma nth_map_0 {A} (f : A -> Qc) l d i : (i < length l)%nat -> nth i (map f l) 0 = f (nth i l d).
Proof. intros H. rewrite (nth_indep _ 0 (f d)) by now rewrite map_length. apply map_nth. Qed.
Lemma converted a b f rho MM : a <> b -> valid f rho MM ->
  exists g t, conv a b f rho MM = Ok g /\ length g = length f /\ nonneg g /\ qsum g = 1 /\ 0 < t /\
    forall i, (i < length f)%nat -> nth i g 0 * t = amount a b (nth i f 0) (nth i rho 0) (nth i MM 0).
Proof.
  intros Hab HV. destruct (valid_good _ _ _ HV) as (l & -> & -> & -> & HG). exists (map (fun c => am a b c / qsum (map (am a b) l)) l), (qsum (map (am a b) l)).
  assert (HT := total_pos a b l HG). assert (N := pos_ne _ HT). split; [now apply conv_ok|]. rewrite !map_length. split; [reflexivity|].
  destruct HG as (H1 & H2 & H3 & H4). split; [|split; [|split; [assumption|]]].
  - unfold nonneg. rewrite Forall_map, Forall_forall. intros c Hc. apply div_nonneg; [|assumption]. apply am_nonneg; auto.
  - rewrite sum_div. field. assumption.
  - intros i Hi. rewrite !(nth_map_0 _ l (0, 0, 0)) by assumption. fold (am a b (nth i l (0, 0, 0))). field. assumption.
Qed.

(* the result again as the fractions of components *)
Definition after (a b : kind) (l : list comp) : list comp :=
  map (fun c => (am a b c / qsum (map (am a b) l), dens c, mass c)) l.
Lemma after_given a b l : map given (after a b l) = map (fun c => am a b c / qsum (map (am a b) l)) l.
Proof. unfold after. now rewrite map_map. Qed.
Lemma after_dens a b l : map dens (after a b l) = map dens l.
Proof. unfold after. now rewrite map_map. Qed.
Lemma after_mass a b l : map mass (after a b l) = map mass l.
Proof. unfold after. now rewrite map_map. Qed.
Lemma after_good a b l : good l -> good (after a b l).
Proof.
  intros HG. assert (HT := total_pos a b l HG). destruct HG as (H1 & H2 & H3 & H4). repeat split.
  - intros c Hc. apply in_map_iff in Hc as (x & <- & Hx). apply div_nonneg; [apply am_nonneg; auto|assumption].
  - rewrite after_given, sum_div. apply div_pos; assumption.
  - intros c Hc. apply in_map_iff in Hc as (x & <- & Hx). exact (H3 x Hx).
  - intros c Hc. apply in_map_iff in Hc as (x & <- & Hx). exact (H4 x Hx).
Qed.
Lemma after_am a b d l : good l -> map (am b d) (after a b l) = map (fun c => am a d c / qsum (map (am a b) l)) l.
Proof.
  intros HG. assert (N := pos_ne _ (total_pos a b l HG)). destruct HG as (H1 & H2 & H3 & H4). unfold after. rewrite map_map. apply map_ext_in. intros c Hc.
  exact (am_trans a b d c (qsum (map (am a b) l)) (H3 c Hc) (H4 c Hc) N).
Qed.
Lemma conv_again a b d l : b <> d -> good l ->
  conv b d (map given (after a b l)) (map dens l) (map mass l) = Ok (map (fun c => am a d c / qsum (map (am a d) l)) l).
Proof.
  intros Hbd HG. rewrite <- (after_dens a b l), <- (after_mass a b l).
  rewrite (conv_ok b d (after a b l) Hbd (after_good a b l HG)). f_equal.
  rewrite <- (map_map (am b d) (fun q => q / qsum (map (am b d) (after a b l)))), after_am by assumption. rewrite map_map.
  assert (N := pos_ne _ (total_pos a b l HG)). assert (N' := pos_ne _ (total_pos a d l HG)). rewrite sum_div. apply map_ext_in. intros c _. field. auto.
Qed.
Lemma roundtrip a b f rho MM : a <> b -> valid f rho MM ->
  exists g, conv a b f rho MM = Ok g /\ conv b a g rho MM = Ok (map (fun q => q / qsum f) f).
Proof.
  intros Hab HV. destruct (valid_good _ _ _ HV) as (l & -> & -> & -> & HG). eexists. split; [now apply conv_ok|].
  rewrite <- after_given, (conv_again a b a) by auto. f_equal. rewrite map_map. destruct HG as (H1 & H2 & H3 & H4).
  rewrite (sum_ext l (am a a) given) by (intros; apply am_given; auto). apply map_ext_in. intros c Hc. now rewrite am_given by auto.
Qed.
Lemma third a b d f rho MM : a <> b -> b <> d -> a <> d -> valid f rho MM ->
  exists g, conv a b f rho MM = Ok g /\ conv b d g rho MM = conv a d f rho MM.
Proof.
  intros Hab Hbd Had HV. destruct (valid_good _ _ _ HV) as (l & -> & -> & -> & HG). eexists. split; [now apply conv_ok|].
  rewrite <- after_given, (conv_again a b d) by auto. now rewrite conv_ok.
Qed.
Lemma scaled a b k f rho MM : a <> b -> valid f rho MM -> 0 < k -> conv a b (scale k f) rho MM = conv a b f rho MM.
Proof.
  intros Hab HV Hk. destruct (valid_good _ _ _ HV) as (l & -> & -> & -> & HG). rewrite (conv_ok a b l) by assumption.
  set (l' := map (fun c => (k * given c, dens c, mass c)) l).
  assert (scale k (map given l) = map given l' /\ map dens l = map dens l' /\ map mass l = map mass l') as (E1 & E2 & E3).
  { unfold l', scale. rewrite !map_map. auto. }
  assert (good l') as HG'.
  { destruct HG as (H1 & H2 & H3 & H4). repeat split.
    - intros c Hc. apply in_map_iff in Hc as (x & <- & Hx). apply mul_nonneg; [now apply Qclt_le_weak|]. now apply H1.
    - unfold l'. rewrite map_map. rewrite (sum_ext l _ (fun c => k * given c)) by reflexivity. rewrite sum_scale. now apply mul_pos.
    - intros c Hc. apply in_map_iff in Hc as (x & <- & Hx). exact (H3 x Hx).
    - intros c Hc. apply in_map_iff in Hc as (x & <- & Hx). exact (H4 x Hx). }
  rewrite E1, E2, E3, (conv_ok a b l') by assumption. f_equal. assert (N := pos_ne _ (total_pos a b l HG)). apply pos_ne in Hk.
  destruct HG as (H1 & H2 & H3 & H4).
  assert (forall c, In c l -> am a b (k * given c, dens c, mass c) = k * am a b c) as E.
  { intros c Hc. specialize (H3 c Hc). specialize (H4 c Hc). apply pos_ne in H3, H4. unfold am, amount, given, dens, mass in *. cbn [fst snd].
    destruct a, b; field; auto. }
  assert (qsum (map (am a b) l') = k * qsum (map (am a b) l)) as ->.
  { unfold l'. rewrite map_map, <- sum_scale. now apply sum_ext. }
  unfold l'. rewrite map_map. apply map_ext_in. intros c Hc. rewrite E by assumption. field. auto.
Qed.
