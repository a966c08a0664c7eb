From Verif Require Import DiodeModel DiodeSpec ScalarSpec OutlierProofs ScalarProofs ScalarDigitProofs.
From Coq Require Import Lia.
Local Open Scope Qc_scope.

Lemma nz_eqb q : q <> 0 -> Qc_eqb q 0 = false.
Proof. intros H. destruct (Qc_eqb q 0) eqn:E; [|reflexivity]. qc_bool. contradiction. Qed.
Lemma divide_ok a b : b <> 0 -> divide a b = Ok (a / b).
Proof. intros H. unfold divide. now rewrite nz_eqb. Qed.
Lemma Rout_is d r : resistance d r -> Rout d = Ok r.
Proof.
  unfold Rout. intros [-> | (i & v & -> & -> & N & <-)]; [reflexivity|]. rewrite divide_ok by exact N. f_equal. field. exact N.
Qed.
Lemma opt_fin a b : a = b -> @Ok num (Fin a) = Ok (Fin b). Proof. now intros ->. Qed.

Section Works.
Context (d : diode) (r s f0 i0 : Qc) (W : works d r s f0 i0).
Let R : Rout d = Ok r. Proof. apply Rout_is. apply W. Qed.
Lemma r_nz : r <> 0. Proof. apply W. Qed.
Lemma s_nz : s <> 0. Proof. apply W. Qed.
Lemma c_nz : charge d <> 0. Proof. apply W. Qed.
Lemma vtc : op_voltagetocps d = Ok [Linear (Fin s) (Fin f0)].
Proof.
  destruct W as (_ & _ & (o & O & N & E & F) & _). unfold op_voltagetocps. rewrite O, divide_ok by exact N. cbn [bind]. rewrite F.
  unfold lin. do 4 f_equal. rewrite <- E. field. exact N.
Qed.
Lemma ctv : op_cpstovoltage d = Ok [Linear (Fin (1 / s)) (Fin (- f0 / s))].
Proof. unfold op_cpstovoltage. rewrite vtc. cbn [bind inverse inverse1 n_opp n_div]. now rewrite (nz_eqb s s_nz). Qed.
Lemma itv : op_currenttovoltage d = Ok [Linear (Fin r) (Fin 0)].
Proof. unfold op_currenttovoltage. now rewrite R. Qed.
Lemma vti : op_voltagetocurrent d = Ok [Linear (Fin (1 / r)) (Fin 0)].
Proof. unfold op_voltagetocurrent. rewrite R. cbn [bind]. now rewrite (divide_ok _ _ r_nz). Qed.
Lemma fti : op_fluxtocurrent d = Ok [Linear (Fin (charge d)) (Fin i0)].
Proof. unfold op_fluxtocurrent, lin. destruct W as (_ & _ & _ & _ & -> & _). reflexivity. Qed.
Lemma itf : op_currenttoflux d = Ok [Linear (Fin (1 / charge d)) (Fin (- i0 / charge d))].
Proof. unfold op_currenttoflux. rewrite fti. cbn [bind inverse inverse1 n_opp n_div]. now rewrite (nz_eqb _ c_nz). Qed.
Lemma itc : op_currenttocps d = Ok [Linear (Fin (s * r)) (Fin (0 * s + f0))].
Proof. unfold op_currenttocps. rewrite vtc, itv. reflexivity. Qed.
Lemma cti : op_cpstocurrent d = Ok [Linear (Fin (1 / r * (1 / s))) (Fin (- f0 / s * (1 / r) + 0))].
Proof. unfold op_cpstocurrent. rewrite vti, ctv. reflexivity. Qed.
Lemma ctf : op_cpstoflux d = Ok [Linear (Fin (1 / charge d * (1 / r * (1 / s)))) (Fin ((- f0 / s * (1 / r) + 0) * (1 / charge d) + - i0 / charge d))].
Proof. unfold op_cpstoflux. rewrite itf, cti. reflexivity. Qed.
Lemma ftc : op_fluxtocps d = Ok [Linear (Fin (s * r * charge d)) (Fin (i0 * (s * r) + (0 * s + f0)))].
Proof. unfold op_fluxtocps. rewrite itc, fti. reflexivity. Qed.
Lemma vtf : op_voltagetoflux d = Ok [Linear (Fin (1 / charge d * (1 / r))) (Fin (0 * (1 / charge d) + - i0 / charge d))].
Proof. unfold op_voltagetoflux. rewrite itf, vti. reflexivity. Qed.
Lemma ftv : op_fluxtovoltage d = Ok [Linear (Fin (r * charge d)) (Fin (i0 * r + 0))].
Proof. unfold op_fluxtovoltage. rewrite itv, fti. reflexivity. Qed.
Lemma ntc t : t <> 0 -> op_countstocps t = Ok [Linear (Fin (1 / t)) (Fin 0)].
Proof. intros T. unfold op_countstocps. now rewrite divide_ok. Qed.
Lemma ntf t : t <> 0 -> op_countstoflux d t = Ok [Linear (Fin (1 / charge d * (1 / r * (1 / s)) * (1 / t)))
  (Fin (0 * (1 / charge d * (1 / r * (1 / s))) + ((- f0 / s * (1 / r) + 0) * (1 / charge d) + - i0 / charge d)))].
Proof. intros T. unfold op_countstoflux. rewrite ctf, ntc by exact T. reflexivity. Qed.
Lemma ntv t : t <> 0 -> op_countstovoltage d t = Ok [Linear (Fin (1 / s * (1 / t))) (Fin (0 * (1 / s) + - f0 / s))].
Proof. intros T. unfold op_countstovoltage. rewrite ctv, ntc by exact T. reflexivity. Qed.

Ltac fin := cbn [conv bind eval eval1 n_mul n_add]; apply opt_fin.
Lemma conversions f i v c : signals d r s f0 i0 f i v c ->
  fluxtocurrent d (Fin f) = Ok (Fin i) /\ currenttoflux d (Fin i) = Ok (Fin f) /\
  currenttovoltage d (Fin i) = Ok (Fin v) /\ conv (op_voltagetocurrent d) (Fin v) = Ok (Fin i) /\
  voltagetocps d (Fin v) = Ok (Fin c) /\ cpstovoltage d (Fin c) = Ok (Fin v) /\
  fluxtovoltage d (Fin f) = Ok (Fin v) /\ voltagetoflux d (Fin v) = Ok (Fin f) /\
  currenttocps d (Fin i) = Ok (Fin c) /\ cpstocurrent d (Fin c) = Ok (Fin i) /\
  fluxtocps d (Fin f) = Ok (Fin c) /\ cpstoflux d (Fin c) = Ok (Fin f).
Proof.
  intros (-> & -> & ->). pose proof r_nz as A. pose proof s_nz as B. pose proof c_nz as C.
  unfold fluxtocurrent, currenttoflux, currenttovoltage, voltagetocps, cpstovoltage, fluxtovoltage, voltagetoflux, currenttocps, cpstocurrent, fluxtocps, cpstoflux, conv.
  rewrite fti, itf, itv, vti, vtc, ctv, ftv, vtf, itc, cti, ftc, ctf. generalize dependent (charge d). clear R W. intros q C.
  split; [fin; ring|]. split; [fin; field; assumption|]. split; [fin; ring|]. split; [fin; field; assumption|].
  split; [fin; ring|]. split; [fin; field; assumption|]. split; [fin; ring|]. split; [fin; field; tauto|].
  split; [fin; ring|]. split; [fin; field; tauto|]. split; [fin; ring|]. fin; field; tauto.
Qed.
Lemma counts f i v c t : signals d r s f0 i0 f i v c -> t <> 0 ->
  countstocps t (Fin (c * t)) = Ok (Fin c) /\ countstoflux d t (Fin (c * t)) = Ok (Fin f) /\
  conv (op_countstovoltage d t) (Fin (c * t)) = Ok (Fin v).
Proof.
  intros (-> & -> & ->) T. pose proof r_nz as A. pose proof s_nz as B. pose proof c_nz as C.
  unfold countstocps, countstoflux, conv. rewrite ntc, ntf, ntv by exact T. generalize dependent (charge d). clear R W. intros q C.
  split; [fin; field; assumption|]. split; fin; field; tauto.
Qed.
Lemma response f i v c t : signals d r s f0 i0 f i v c -> (forall x, t = Some x -> x <> 0) ->
  (forall u x, (default t u = Hz /\ x = c) \/ (default t u = Ampere /\ x = i) \/ (default t u = Volt /\ x = v) \/
               (default t u = Counts /\ exists time, t = Some time /\ x = c * time) ->
     responsetoflux d t u (Fin x) = Ok (Fin f) /\ conv (fluxop d t u) (Fin x) = Ok (Fin f)).
Proof.
  intros E T u x H. destruct (conversions f i v c E) as (_ & A & _ & _ & _ & _ & _ & B & _ & _ & _ & C).
  unfold responsetoflux, fluxop. destruct H as [[-> ->] | [[-> ->] | [[-> ->] | [-> (time & -> & ->)]]]].
  - split; exact C.
  - rewrite A. split; [reflexivity|exact A].
  - split; exact B.
  - destruct (counts f i v c time E (T _ eq_refl)) as (_ & D & _). split; exact D.
Qed.
End Works.

Lemma unit_errors d t u x :
  (u = Other -> responsetoflux d t u x = Err TypeError /\ fluxop d t u = Err TypeError) /\
  (u = Counts -> responsetoflux d None u x = Err RuntimeError /\ fluxop d None u = Err RuntimeError).
Proof. split; intros ->; split; reflexivity. Qed.
Lemma no_oscillator d x t : oscillator d = None -> t <> 0 ->
  voltagetocps d x = Err AttributeError /\ cpstovoltage d x = Err AttributeError /\ currenttocps d x = Err AttributeError /\
  fluxtocps d x = Err AttributeError.
Proof.
  intros O T. unfold voltagetocps, cpstovoltage, currenttocps, fluxtocps, op_fluxtocps, op_currenttocps, op_cpstovoltage, op_voltagetocps.
  rewrite O. repeat (split; [reflexivity|]). reflexivity.
Qed.

(* ---- normalisation ---- *)
Lemma xrfnorm_flux d r s f0 i0 t Fref tr : works d r s f0 i0 -> t <> 0 -> Fref <> 0 -> (forall x, tr = Some x -> x <> 0) ->
  exists op, xrfnormop d t Hz Fref tr = Ok (op, Fref, match tr with Some x => x | None => t end) /\
    forall f i v c, signals d r s f0 i0 f i v c -> eval op (Fin (c * t)) = Fin (f * t / (Fref * match tr with Some x => x | None => t end)).
Proof.
  intros W T FR TR. unfold xrfnormop. rewrite (ntf _ _ _ _ _ W t T). cbn [bind].
  pose proof (r_nz _ _ _ _ _ W) as A. pose proof (s_nz _ _ _ _ _ W) as B. pose proof (c_nz _ _ _ _ _ W) as C.
  destruct tr as [x|].
  - specialize (TR x eq_refl).
    assert (N : Fref * x <> 0) by (intros E; apply Qcmult_integral in E; destruct E; contradiction).
    rewrite (divide_ok _ _ N). cbn [bind]. eexists. split; [reflexivity|].
    intros f i v c (-> & -> & ->). cbn [lin mul mul1 eval eval1 n_mul n_add]. generalize dependent (charge d). clear W. intros q C.
    f_equal. field. tauto.
  - rewrite (divide_ok _ _ FR). cbn [bind]. eexists. split; [reflexivity|].
    intros f i v c (-> & -> & ->). cbn [lin mul mul1 eval eval1 n_mul n_add]. generalize dependent (charge d). clear W. intros q C.
    f_equal. field. tauto.
Qed.
Lemma xrfnorm_counts d r s f0 i0 t f i v c tr y : works d r s f0 i0 -> t <> 0 -> signals d r s f0 i0 f i v c ->
  ScalarModel.round_sig f 2 = Ok y -> xrfnormop d t Counts (c * t) tr = xrfnormop d t Hz y tr.
Proof.
  intros W T E Y. destruct (counts _ _ _ _ _ W f i v c t E T) as (_ & D & _). unfold countstoflux, conv in D. unfold xrfnormop.
  rewrite (ntf _ _ _ _ _ W t T) in *. cbn [bind] in *. assert (D' : eval [Linear (Fin (1 / charge d * (1 / r * (1 / s)) * (1 / t)))
         (Fin (0 * (1 / charge d * (1 / r * (1 / s))) + ((- f0 / s * (1 / r) + 0) * (1 / charge d) + - i0 / charge d)))] (Fin (c * t)) = Fin f) by congruence.
  rewrite D', Y. reflexivity.
Qed.
Lemma xrfnorm_errors d t x tr : (forall u, u <> Hz -> u <> Counts -> exists e, xrfnormop d t u x tr = Err e) /\
  (exists e, xrfnormop d t Hz 0 tr = Err e).
Proof.
  split.
  - intros u A B. unfold xrfnormop. destruct (op_countstoflux d t); [|eexists; reflexivity]. cbn [bind].
    destruct u; try contradiction; eexists; reflexivity.
  - unfold xrfnormop. destruct (op_countstoflux d t); [|eexists; reflexivity]. cbn [bind].
    destruct tr as [q|]; [|eexists; reflexivity]. replace (0 * q) with (0 : Qc) by ring. eexists. reflexivity.
Qed.

(* ---- the dark ---- *)
Lemma known_values l : known l = values l.
Proof. induction l as [|[q|] l IH]; cbn; [reflexivity| |exact IH]. now rewrite <- IH. Qed.
Lemma nanmedian_is l m : is_median (values l) m -> nanmedian l = Fin m.
Proof.
  intros H. unfold nanmedian. rewrite known_values. assert (N : values l <> []).
  { intros E. rewrite E in H. destruct H as (u & P & _ & [(k & L & _)|(k & a & b & L & _)]); cbn in L; discriminate. }
  destruct (values l) as [|x t] eqn:E; [contradiction|]. f_equal. now apply median_is.
Qed.
Lemma clip0_pos q : 0 <= q -> clip0 (Fin q) = Fin q.
Proof. intros H. unfold clip0, n_ltb. destruct (Qc_ltb q 0) eqn:E; [|reflexivity]. qc_bool. exfalso. qclra. Qed.
Lemma clip0_neg q : q <= 0 -> clip0 (Fin q) = Fin 0.
Proof.
  intros H. unfold clip0, n_ltb. destruct (Qc_ltb q 0) eqn:E; [reflexivity|]. qc_bool. f_equal. apply Qcle_antisym; assumption.
Qed.
Lemma clip0_cases q : exists p, clip0 (Fin q) = Fin p /\ 0 <= p /\ (0 <= q -> p = q) /\ (q <= 0 -> p = 0).
Proof.
  destruct (Qc_leb 0 q) eqn:E; qc_bool.
  - exists q. rewrite clip0_pos by exact E. repeat split; auto. intros. apply Qcle_antisym; assumption.
  - exists 0. assert (q <= 0) by qclra. rewrite clip0_neg by assumption. repeat split; auto; [apply Qcle_refl|]. intros. apply Qcle_antisym; assumption.
Qed.
Lemma dark_rate d r s f0 i0 t u l m : works d r s f0 i0 -> default t u = Hz -> is_median (values l) m -> 0 < s * r ->
  exists j, calibratedark d t u l = Ok {| vmax := vmax d; oscillator := oscillator d; gain := gain d; dark := Fin j; charge := charge d |} /\
    0 <= j /\ (0 <= m -> f0 <= m -> s * (r * j) + f0 = m) /\ (m <= f0 -> 0 <= f0 -> j = 0).
Proof.
  intros W U M P. unfold calibratedark, cpstocurrent, conv. rewrite U, (nanmedian_is l m M), (cti _ _ _ _ _ W). cbn [bind].
  pose proof (r_nz _ _ _ _ _ W) as A. pose proof (s_nz _ _ _ _ _ W) as B.
  destruct (clip0_cases m) as (p & -> & P0 & P1 & P2). cbn [eval eval1 n_mul n_add].
  assert (E : exists z, z * (s * r) = p - f0 /\ 1 / r * (1 / s) * p + (- f0 / s * (1 / r) + 0) = z).
  { exists ((p - f0) / (s * r)). split; field; auto. }
  destruct E as (z & Z1 & ->). destruct (clip0_cases z) as (j & -> & J0 & J1 & J2). exists j. split; [reflexivity|]. split; [exact J0|].
  assert (S0 : 0 <= p - f0 -> 0 <= z).
  { intros H. rewrite <- Z1 in H. clear - H P. generalize dependent (s * r). intros q H P. destruct (Qc_leb 0 z) eqn:E; qc_bool; [exact E|exfalso]. qcnra. }
  assert (S1 : p - f0 <= 0 -> z <= 0).
  { intros H. rewrite <- Z1 in H. clear - H P. generalize dependent (s * r). intros q H P. destruct (Qc_leb z 0) eqn:E; qc_bool; [exact E|exfalso]. qcnra. }
  split.
  - intros H1 H2. rewrite (P1 H1) in *. rewrite J1 by (apply S0; clear - H2; qclra).
    replace (s * (r * z)) with (z * (s * r)) by ring. rewrite Z1. ring.
  - intros H1 H2. apply J2, S1. destruct (Qc_leb 0 m) eqn:E; qc_bool.
    + rewrite (P1 E). clear - H1. qclra.
    + rewrite P2 by (clear - E; qclra). clear - H2. qclra.
Qed.
Lemma dark_current d t u l m : default t u = Ampere -> is_median (values l) m ->
  exists j, calibratedark d t u l = Ok {| vmax := vmax d; oscillator := oscillator d; gain := gain d; dark := Fin j; charge := charge d |} /\
    (0 <= m -> j = m) /\ (m <= 0 -> j = 0).
Proof.
  intros U M. unfold calibratedark. rewrite U, (nanmedian_is l m M). cbn [bind].
  destruct (clip0_cases m) as (p & -> & P0 & P1 & P2). rewrite (clip0_pos p P0). exists p. split; [reflexivity|]. auto.
Qed.
Lemma values_scale k l : values (map (option_map (fun x => k * x + 0)) l) = map (affine k 0) (values l).
Proof. induction l as [|[q|] l IH]; cbn; [reflexivity| |exact IH]. now rewrite IH. Qed.
Lemma F0_rate d r s f0 i0 t u l m k : works d r s f0 i0 ->
  (default t u = Hz /\ k = 1) \/ (default t u = Counts /\ exists time, t = Some time /\ time <> 0 /\ k * time = 1) -> is_median (values l) m ->
  exists o x, oscillator d = Some o /\
    calibrateF0 d t u l = Ok {| vmax := vmax d; oscillator := Some {| Fmax := Fmax o; F0 := Fin x; Vosc := Vosc o |}; gain := gain d; dark := dark d; charge := charge d |} /\
    0 <= x /\ (0 <= k * m -> s * (r * i0) <= k * m -> s * (r * i0) + x = k * m) /\ (k * m <= s * (r * i0) -> 0 <= s * (r * i0) -> x = 0).
Proof.
  intros W U M. pose proof W as (_ & _ & (o & O & N & Sl & F) & _ & D & _).
  assert (K : match default t u with
               | Hz => Ok (clip0 (nanmedian l))
               | Counts => match t with
                           | None => Err RuntimeError
                           | Some t => let! m := divide 1 t in Ok (clip0 (nanmedian (map (option_map (fun x => m * x + 0)) l)))
                           end
               | _ => Err TypeError
               end = Ok (clip0 (Fin (k * m)))).
  { destruct U as [[-> ->] | [-> (time & -> & T & KT)]].
    - rewrite (nanmedian_is l m M). do 3 f_equal. ring.
    - rewrite (divide_ok _ _ T). cbn [bind]. assert (KV : 1 / time = k) by (rewrite <- KT; field; exact T). rewrite KV.
      assert (KN : k <> 0) by (intros Z; rewrite Z in KT; assert (X : 0 = 1 :> Qc) by (rewrite <- KT; ring); discriminate X).
      rewrite (nanmedian_is _ (affine k 0 m)); [do 3 f_equal; unfold affine; ring|]. rewrite values_scale. now apply is_median_affine. }
  unfold calibrateF0. rewrite K, O, D. cbn [bind]. unfold currenttocps, conv. rewrite (itc _ _ _ _ _ W). cbn [bind eval eval1 n_mul n_add].
  destruct (clip0_cases (k * m)) as (p & -> & P0 & P1 & P2). rewrite F. cbn [n_sub n_opp n_add].
  assert (E : f0 + (p + - (s * r * i0 + (0 * s + f0))) = p - s * (r * i0)) by ring. rewrite E.
  destruct (clip0_cases (p - s * (r * i0))) as (x & -> & X0 & X1 & X2). exists o, x. split; [reflexivity|].
  split; [unfold set_F0; rewrite D; reflexivity|]. split; [exact X0|].
  clear - P1 P2 X1 X2. generalize dependent (s * (r * i0)). generalize dependent (k * m). intros a P1 P2 b X1 X2. split.
  - intros H1 H2. rewrite (P1 H1) in *. rewrite X1 by (clear - H2; qclra). ring.
  - intros H1 H2. apply X2. destruct (Qc_leb 0 a) eqn:E; qc_bool; [rewrite (P1 E); clear - H1; qclra|]. rewrite P2 by (clear - E; qclra). clear - H2; qclra.
Qed.
Lemma dark_counts d t u l : default (Some t) u = Counts -> t <> 0 -> calibratedark d (Some t) u l = Err NotImplementedError.
Proof. intros U T. unfold calibratedark, countstocurrent, conv, op_countstocurrent. rewrite U, ntc by exact T. reflexivity. Qed.

(* ---- settings of the gain ---- *)
Lemma bpow_pos b n : (2 <= b)%Z -> (0 <= n)%Z -> (0 < b ^ n)%Z.
Proof. intros. apply Z.pow_pos_nonneg; lia. Qed.
Lemma qpow_power b n : (2 <= b)%Z -> power b n (qpow b n).
Proof.
  intros B. unfold power, qpow. destruct (Z.leb_spec 0 n) as [L|L]; [left; auto|right]. split; [exact L|].
  assert (N := of_Z_pos _ (bpow_pos b (- n) B ltac:(lia))). generalize dependent (Qc_of_Z (b ^ (- n))). intros q N. field. intros ->. qclra.
Qed.
Lemma power_unique b e x y : (2 <= b)%Z -> power b e x -> power b e y -> x = y.
Proof.
  intros B0 [[H ->]|[H A]] [[H' ->]|[H' B]]; try lia; [reflexivity|].
  assert (N := of_Z_pos _ (bpow_pos b (- e) B0 ltac:(lia))). generalize dependent (Qc_of_Z (b ^ (- e))). intros q A B N.
  assert (q <> 0) by (intros ->; qclra). assert ((x - y) * q = 0) by (replace ((x - y) * q) with (x * q - y * q) by ring; rewrite A, B; ring).
  apply Qcmult_integral in H1. destruct H1 as [H1|H1]; [|contradiction]. qclra.
Qed.
Lemma power_is b e x : (2 <= b)%Z -> power b e x -> x = qpow b e.
Proof. intros B H. exact (power_unique b e x _ B H (qpow_power b e B)). Qed.
Lemma qpow_pos b n : (2 <= b)%Z -> 0 < qpow b n.
Proof.
  intros B. destruct (qpow_power b n B) as [[H E]|[H E]]; [rewrite E; apply of_Z_pos; now apply bpow_pos|].
  assert (P := of_Z_pos _ (bpow_pos b (- n) B ltac:(lia))). generalize dependent (Qc_of_Z (b ^ (- n))). intros q E P.
  destruct (Qc_ltb 0 (qpow b n)) eqn:L; qc_bool; [exact L|exfalso]. qcnra.
Qed.
Lemma qpow_0 b : qpow b 0 = 1. Proof. apply of_Z_1. Qed.
Lemma qpow_of_Z b n : (0 <= n)%Z -> qpow b n = Qc_of_Z (b ^ n).
Proof. intros H. unfold qpow. destruct (Z.leb_spec 0 n); [reflexivity|lia]. Qed.
Lemma qpow_succ b n : (2 <= b)%Z -> qpow b (n + 1) = qpow b n * Qc_of_Z b.
Proof.
  intros B. apply (power_unique b (n + 1)); [exact B|now apply qpow_power|]. destruct (qpow_power b n B) as [[H E]|[H E]].
  - left. split; [lia|]. rewrite E, <- Qc_of_Z_mult. f_equal. rewrite Z.pow_add_r by lia. ring.
  - destruct (Z.eq_dec n (-1)) as [->|D].
    + left. split; [lia|]. change (-1 + 1)%Z with 0%Z. rewrite Z.pow_0_r, of_Z_1. change (- -1)%Z with 1%Z in E. rewrite Z.pow_1_r in E. exact E.
    + right. split; [lia|]. replace (- n)%Z with (1 + - (n + 1))%Z in E by lia. rewrite Z.pow_add_r, Z.pow_1_r in E by lia.
      rewrite Qc_of_Z_mult in E. rewrite <- E. ring.
Qed.
Lemma qpow_plus b m n : (2 <= b)%Z -> qpow b (m + n) = qpow b m * qpow b n.
Proof.
  intros B. pose proof (of_Z_pos b ltac:(lia)) as NB. revert n. apply Z.bi_induction.
  - intros x y ->. reflexivity.
  - rewrite qpow_0, Z.add_0_r. ring.
  - intros n. assert (S1 : qpow b (Z.succ n) = qpow b n * Qc_of_Z b) by (apply qpow_succ; exact B).
    assert (S2 : qpow b (m + Z.succ n) = qpow b (m + n) * Qc_of_Z b) by (rewrite Z.add_succ_r; apply qpow_succ; exact B).
    rewrite S1, S2. split; [intros ->; ring|]. intros E.
    assert (X : (qpow b (m + n) - qpow b m * qpow b n) * Qc_of_Z b = 0).
    { replace ((qpow b (m + n) - qpow b m * qpow b n) * Qc_of_Z b) with (qpow b (m + n) * Qc_of_Z b - qpow b m * (qpow b n * Qc_of_Z b)) by ring.
      rewrite E. ring. }
    apply Qcmult_integral in X. destruct X as [X|X]; [|rewrite X in NB; exfalso; clear - NB; qclra].
    revert X. generalize (qpow b (m + n)), (qpow b m), (qpow b n). intros x y z X.
    replace x with (x - y * z + y * z) by ring. rewrite X. ring.
Qed.
Lemma qpow_le b m n : (2 <= b)%Z -> (m <= n)%Z -> qpow b m <= qpow b n.
Proof.
  intros B H. replace n with (m + (n - m))%Z by lia. rewrite qpow_plus by exact B. pose proof (qpow_pos b m B).
  assert (1 <= qpow b (n - m)).
  { rewrite qpow_of_Z by lia. rewrite <- of_Z_1. apply Qc_of_Z_le. pose proof (bpow_pos b (n - m) B ltac:(lia)). lia. }
  generalize dependent (qpow b (n - m)). generalize dependent (qpow b m). intros; qcnra.
Qed.
Lemma qpow_lt b m n : (2 <= b)%Z -> (m < n)%Z -> qpow b m < qpow b n.
Proof.
  intros B H. apply Qclt_le_trans with (qpow b (m + 1)); [|apply qpow_le; [exact B|lia]]. rewrite qpow_succ by exact B.
  pose proof (qpow_pos b m B). assert (1 < Qc_of_Z b) by (rewrite <- of_Z_1; apply Qc_of_Z_lt; lia).
  generalize dependent (qpow b m). generalize dependent (Qc_of_Z b). intros; qcnra.
Qed.
Lemma digits_from_ok b (B : (2 <= b)%Z) fuel : forall a, (0 < a)%Z -> (a < 2 ^ Z.of_nat fuel)%Z ->
  (1 <= digits_from fuel b a)%Z /\ (b ^ (digits_from fuel b a - 1) <= a < b ^ digits_from fuel b a)%Z.
Proof.
  induction fuel as [|f IH]; intros a P L; [change (2 ^ Z.of_nat 0)%Z with 1%Z in L; lia|].
  cbn [digits_from]. destruct (Z.ltb_spec a b) as [S0|S0]; [split; [lia|]; change (1 - 1)%Z with 0%Z; rewrite Z.pow_0_r, Z.pow_1_r; lia|].
  rewrite Nat2Z.inj_succ, Z.pow_succ_r in L by lia.
  destruct (IH (a / b)%Z) as (A & B1 & C).
  - apply Z.div_str_pos; lia.
  - apply Z.div_lt_upper_bound; [lia|]. assert (0 <= 2 ^ Z.of_nat f)%Z by (apply Z.pow_nonneg; lia). nia.
  - set (k := digits_from f b (a / b)) in *. clearbody k. pose proof (Z.div_mod a b ltac:(lia)). pose proof (Z.mod_pos_bound a b ltac:(lia)).
    split; [lia|]. replace (1 + k - 1)%Z with (1 + (k - 1))%Z by lia. rewrite !Z.pow_add_r, !Z.pow_1_r by lia. nia.
Qed.
Lemma digits_ok b a : (2 <= b)%Z -> (0 < a)%Z -> (1 <= ndigits b a)%Z /\ (b ^ (ndigits b a - 1) <= a < b ^ ndigits b a)%Z.
Proof.
  intros B P. apply digits_from_ok; [exact B|exact P|]. pose proof (Z.log2_spec a P) as [_ H]. pose proof (Z.log2_nonneg a).
  rewrite Nat2Z.inj_succ, Z2Nat.id by lia. exact H.
Qed.
Lemma floor_log_ok b x : (2 <= b)%Z -> 0 < x -> qpow b (floor_log b x) <= x /\ x < qpow b (floor_log b x + 1).
Proof.
  intros B P. unfold floor_log. set (a := Qnum (this x)). set (q := Zpos (Qden (this x))).
  assert (X : x * Qc_of_Z q = Qc_of_Z a).
  { apply Qc_is_canon. unfold Qc_of_Z. rewrite this_mult, !this_Q2Qc. unfold Qeq, a, q. cbn. rewrite Pos.mul_1_r. ring. }
  assert (PA : (0 < a)%Z) by (unfold Qclt, Qlt in P; cbn in P; unfold a; lia).
  assert (PB : (0 < q)%Z) by (unfold q; lia).
  destruct (digits_ok b a B PA) as (A0 & A1 & A2). destruct (digits_ok b q B PB) as (B0 & B1 & B2).
  set (na := ndigits b a) in *. set (nb := ndigits b q) in *. clearbody na nb a q.
  apply Qc_of_Z_le in A1, B1. apply Qc_of_Z_lt in A2, B2. rewrite <- !qpow_of_Z in A1, A2, B1, B2 by lia.
  apply of_Z_pos in PB.
  assert (UP : x < qpow b (na - nb + 1)).
  { replace na with ((na - nb + 1) + (nb - 1))%Z in A2 by lia. rewrite qpow_plus in A2 by exact B.
    pose proof (qpow_pos b (nb - 1) B). pose proof (qpow_pos b (na - nb + 1) B).
    generalize dependent (qpow b (na - nb + 1)). generalize dependent (qpow b (nb - 1)).
    generalize dependent (Qc_of_Z a). generalize dependent (Qc_of_Z q). intros.
    destruct (Qc_ltb x q3) eqn:E; qc_bool; [exact E|exfalso]. qcnra. }
  assert (DN : qpow b (na - nb - 1) <= x).
  { replace (na - 1)%Z with ((na - nb - 1) + nb)%Z in A1 by lia. rewrite qpow_plus in A1 by exact B.
    pose proof (qpow_pos b nb B). pose proof (qpow_pos b (na - nb - 1) B).
    generalize dependent (qpow b (na - nb - 1)). generalize dependent (qpow b nb).
    generalize dependent (Qc_of_Z a). generalize dependent (Qc_of_Z q). intros.
    destruct (Qc_leb q3 x) eqn:E; qc_bool; [exact E|exfalso]. qcnra. }
  destruct (Qc_leb (qpow b (na - nb)) x) eqn:E; qc_bool; [split; assumption|].
  split; [exact DN|]. replace (na - nb - 1 + 1)%Z with (na - nb)%Z by lia. exact E.
Qed.
Lemma sq_le a x : 0 < a -> a <= x -> a * a <= x * x. Proof. intros; qcnra. Qed.
Lemma sq_lt a x : 0 < x -> x < a -> x * x < a * a. Proof. intros; qcnra. Qed.
Lemma lt_self (a : Qc) : a < a -> False. Proof. intros H. exact (Qclt_not_eq _ _ H eq_refl). Qed.
Lemma round_log_ok b x : (2 <= b)%Z -> 0 < x ->
  qpow b (2 * round_log b x - 1) <= x * x /\ x * x <= qpow b (2 * round_log b x + 1) /\
  (x * x = qpow b (2 * round_log b x - 1) \/ x * x = qpow b (2 * round_log b x + 1) -> Z.even (round_log b x) = true).
Proof.
  intros B P. unfold round_log. destruct (floor_log_ok b x B P) as [A C]. set (f := floor_log b x) in *. clearbody f.
  pose proof (qpow_pos b f B) as PF. apply (sq_le _ _ PF) in A. apply (sq_lt _ _ P) in C. rewrite <- qpow_plus in A, C by exact B.
  pose proof (qpow_lt b (2 * f - 1) (f + f) B ltac:(lia)) as L1. pose proof (qpow_lt b (f + 1 + (f + 1)) (2 * (f + 1) + 1) B ltac:(lia)) as L2.
  destruct (Qc_ltb (x * x) (qpow b (2 * f + 1))) eqn:E; qc_bool.
  { assert (qpow b (2 * f - 1) < x * x) by (eapply Qclt_le_trans; eassumption).
    split; [now apply Qclt_le_weak|]. split; [now apply Qclt_le_weak|]. intros [Z|Z]; exfalso; rewrite Z in *; eauto using lt_self. }
  assert (HL : x * x < qpow b (2 * (f + 1) + 1)) by (eapply Qclt_trans; eassumption).
  replace (2 * (f + 1) - 1)%Z with (2 * f + 1)%Z by lia.
  destruct (Qc_ltb (qpow b (2 * f + 1)) (x * x)) eqn:E2; qc_bool.
  { replace (2 * (f + 1) - 1)%Z with (2 * f + 1)%Z by lia. split; [exact E|]. split; [now apply Qclt_le_weak|].
    intros [Z|Z]; exfalso; rewrite Z in *; eauto using lt_self. }
  assert (EQ : x * x = qpow b (2 * f + 1)) by (apply Qcle_antisym; assumption).
  destruct (Z.even f) eqn:EV.
  - split; [rewrite EQ; apply qpow_le; [exact B|lia]|]. split; [exact E2|]. auto.
  - replace (2 * (f + 1) - 1)%Z with (2 * f + 1)%Z by lia. split; [exact E|]. split; [now apply Qclt_le_weak|].
    intros _. rewrite Z.even_add, EV. reflexivity.
Qed.
Lemma div_pos x m : 0 < x / m -> m <> 0 -> x = m * (x / m).
Proof. intros _ H. field. exact H. Qed.
Lemma round_gain_power m b x y : (2 <= b)%Z -> m <> 0 -> 0 < y -> x = m * y ->
  exists n u, power b n u /\ round_gain {| rm := Some m; rbase := Some b |} x = Ok (m * u) /\
    (forall k w, power b k w -> ((k < n)%Z -> u * w <= y * y) /\ ((n < k)%Z -> y * y <= u * w) /\
                                 (k <> n -> u * w = y * y -> Z.even n = true)).
Proof.
  intros B M P ->. unfold round_gain. cbn [rm rbase]. rewrite divide_ok by exact M. cbn [bind].
  replace (m * y / m) with y by (field; exact M).
  assert (E1 : Qc_leb y 0 = false) by (destruct (Qc_leb y 0) eqn:E; [qc_bool; exfalso; clear - E P; qclra|reflexivity]).
  rewrite E1. assert (E2 : (b <=? 0)%Z = false) by (apply Z.leb_gt; lia). rewrite E2. assert (E3 : (b =? 1)%Z = false) by (apply Z.eqb_neq; lia). rewrite E3.
  cbn [orb bind]. destruct (round_log_ok b y B P) as (A & C & D). set (n := round_log b y) in *. clearbody n.
  exists n, (qpow b n). split; [now apply qpow_power|]. split; [reflexivity|].
  intros k w K. apply (power_is b k w B) in K. subst w. rewrite <- qpow_plus by exact B.
  assert (LO : (k < n)%Z -> qpow b (n + k) <= y * y) by (intros H; eapply Qcle_trans; [|exact A]; apply qpow_le; [exact B|lia]).
  assert (HI : (n < k)%Z -> y * y <= qpow b (n + k)) by (intros H; eapply Qcle_trans; [exact C|]; apply qpow_le; [exact B|lia]).
  split; [exact LO|]. split; [exact HI|]. intros N E. apply D. rewrite <- E in *.
  destruct (Z.lt_trichotomy k n) as [H|[H|H]]; [left|contradiction|right]; apply Qcle_antisym; try assumption; apply qpow_le; try exact B; lia.
Qed.
Lemma round_gain_fixed m b n u : (2 <= b)%Z -> m <> 0 -> power b n u -> round_gain {| rm := Some m; rbase := Some b |} (m * u) = Ok (m * u).
Proof.
  intros B M U. pose proof (power_is b n u B U) as EU. assert (P : 0 < u) by (rewrite EU; now apply qpow_pos).
  destruct (round_gain_power m b (m * u) u B M P eq_refl) as (k & w & W & -> & H). do 2 f_equal.
  destruct (H n u U) as (H1 & H2 & _). pose proof (power_is b k w B W) as EW.
  destruct (Z.lt_trichotomy n k) as [L|[L|L]].
  - exfalso. specialize (H1 L). pose proof (qpow_lt b n k B L) as LT. rewrite <- EU, <- EW in LT. clear - H1 LT P. qcnra.
  - rewrite EW, EU. now rewrite L.
  - exfalso. specialize (H2 L). pose proof (qpow_lt b k n B L) as LT. rewrite <- EU, <- EW in LT. assert (0 < w) by (rewrite EW; now apply qpow_pos). clear - H2 LT P H0. qcnra.
Qed.
Lemma round_gain_plain x : round_gain {| rm := None; rbase := None |} x = Ok x. Proof. reflexivity. Qed.
Lemma round_gain_base b x : round_gain {| rm := None; rbase := Some b |} x = round_gain {| rm := Some 1; rbase := Some b |} x.
Proof.
  unfold round_gain. cbn [rm rbase]. rewrite divide_ok by discriminate. cbn [bind]. replace (x / 1) with x by (field; discriminate).
  destruct (Qc_leb x 0 || (b <=? 0)%Z); [reflexivity|]. destruct (b =? 1)%Z; [reflexivity|]. cbn [bind]. f_equal. ring.
Qed.
Lemma round_gain_multiple m x : m <> 0 -> exists k, round_gain {| rm := Some m; rbase := None |} x = Ok (m * Qc_of_Z k) /\
  exists e, x = m * (Qc_of_Z k + e) /\ - ScalarModel.half <= e /\ e <= ScalarModel.half /\ (e = ScalarModel.half \/ e = - ScalarModel.half -> Z.even k = true).
Proof.
  intros M. unfold round_gain. cbn [rm rbase]. rewrite divide_ok by exact M. cbn [bind]. exists (ScalarModel.rint (x / m)). split; [reflexivity|].
  exists (x / m - Qc_of_Z (ScalarModel.rint (x / m))). destruct (rint_bounds (x / m)) as [A B]. split; [field; exact M|].
  set (k := ScalarModel.rint (x / m)) in *. assert (K : ScalarModel.rint (x / m) = k) by reflexivity. clearbody k.
  set (y := x / m) in *. clearbody y. split; [clear - B; generalize dependent (Qc_of_Z k); generalize ScalarModel.half; intros; qclra|].
  split; [clear - A; generalize dependent (Qc_of_Z k); generalize ScalarModel.half; intros; qclra|].
  intros [E|E].
  - destruct (rint_tie y k) as [_ T]; [replace (Qc_of_Z k + ScalarModel.half) with (Qc_of_Z k + (y - Qc_of_Z k)) by (rewrite E; reflexivity); ring|]. rewrite <- K. exact T.
  - destruct (rint_tie y (k - 1)) as [_ T].
    { rewrite Qc_of_Z_minus, of_Z_1. rewrite <- half_half. replace y with ((y - Qc_of_Z k) + Qc_of_Z k) at 1 by ring. rewrite E. ring. }
    rewrite <- K. exact T.
Qed.
Lemma round_gain_errors m b x : m <> 0 -> x / m <= 0 -> round_gain {| rm := Some m; rbase := Some b |} x = Err ValueError.
Proof. intros M H. unfold round_gain. cbn [rm rbase]. rewrite divide_ok by exact M. cbn [bind]. apply (proj2 (Qc_leb_le _ _)) in H. now rewrite H. Qed.

Lemma gain_product d r i v : Rout d = Ok r -> Imax d = Ok i -> vmax d = Some v -> (gain d = VperA 0 -> False) -> r * i = v.
Proof.
  unfold Rout, Imax. intros A B V Z. destruct (gain d) as [g|g].
  - rewrite V in B. assert (r = g) by congruence. subst r. unfold divide in B. destruct (Qc_eqb g 0) eqn:E; [discriminate|]. qc_bool.
    assert (i = v / g) by congruence. subst i. field. exact E.
  - rewrite V in A. assert (i = g) by congruence. subst i. unfold divide in A. destruct (Qc_eqb g 0) eqn:E; [discriminate|]. qc_bool.
    assert (r = v / g) by congruence. subst r. field. exact E.
Qed.
Lemma set_Rout_V rd x d g : gain d = VperA g -> forall y, round_gain rd x = Ok y -> exists d', set_Rout rd x d = Ok d' /\
  d' = {| vmax := vmax d; oscillator := oscillator d; gain := VperA y; dark := dark d; charge := charge d |} /\ Rout d' = Ok y.
Proof. intros G y Y. unfold set_Rout, set_gain. rewrite G, Y. cbn [bind]. eexists. split; [reflexivity|]. split; reflexivity. Qed.
Lemma set_Rout_A rd x d g v i : gain d = Amps g -> vmax d = Some v -> i * x = v -> x <> 0 -> forall y, round_gain rd i = Ok y -> exists d', set_Rout rd x d = Ok d' /\
  d' = {| vmax := vmax d; oscillator := oscillator d; gain := Amps y; dark := dark d; charge := charge d |} /\ Imax d' = Ok y /\ (y <> 0 -> y = i -> Rout d' = Ok x).
Proof.
  intros G V E X y Y. unfold set_Rout, set_gain. rewrite G, V, (divide_ok _ _ X). cbn [bind]. assert (Q : v / x = i) by (rewrite <- E; field; exact X).
  rewrite Q, Y. cbn [bind]. eexists. split; [reflexivity|]. split; [reflexivity|]. split; [reflexivity|].
  intros N ->. unfold Rout. cbn [gain vmax]. rewrite (divide_ok _ _ N). apply (f_equal Ok). rewrite <- E. field. exact N.
Qed.
Lemma set_Imax_A rd x d g : gain d = Amps g -> forall y, round_gain rd x = Ok y -> exists d', set_Imax rd x d = Ok d' /\
  d' = {| vmax := vmax d; oscillator := oscillator d; gain := Amps y; dark := dark d; charge := charge d |} /\ Imax d' = Ok y.
Proof. intros G y Y. unfold set_Imax, set_gain. rewrite G, Y. cbn [bind]. eexists. split; [reflexivity|]. split; reflexivity. Qed.
Lemma set_Imax_V rd x d g v r : gain d = VperA g -> vmax d = Some v -> r * x = v -> x <> 0 -> forall y, round_gain rd r = Ok y -> exists d', set_Imax rd x d = Ok d' /\
  d' = {| vmax := vmax d; oscillator := oscillator d; gain := VperA y; dark := dark d; charge := charge d |} /\ Rout d' = Ok y /\ (y <> 0 -> y = r -> Imax d' = Ok x).
Proof.
  intros G V E X y Y. unfold set_Imax, set_gain. rewrite G, V, (divide_ok _ _ X). cbn [bind]. assert (Q : v / x = r) by (rewrite <- E; field; exact X).
  rewrite Q, Y. cbn [bind]. eexists. split; [reflexivity|]. split; [reflexivity|]. split; [reflexivity|].
  intros N ->. unfold Imax. cbn [gain vmax]. rewrite (divide_ok _ _ N). apply (f_equal Ok). rewrite <- E. field. exact N.
Qed.
Lemma gain_errors rd x d : vmax d = None -> (forall g, gain d = Amps g -> Rout d = Err TypeError /\ set_Rout rd x d = Err TypeError) /\
  (forall g, gain d = VperA g -> Imax d = Err TypeError /\ set_Imax rd x d = Err TypeError).
Proof. intros V. unfold Rout, Imax, set_Rout, set_Imax. split; intros g ->; rewrite V; split; reflexivity. Qed.

(* ---- gain from a response ---- *)
Lemma median_const q l : l <> [] -> Forall (fun x => x = q) l -> ScalarModel.median l = q.
Proof.
  intros N F. destruct (median_spec l N) as (u & P & _ & H). rewrite Forall_forall in F.
  assert (I : forall k a, nth_error u k = Some a -> a = q).
  { intros k a E. apply F. apply Permutation_in with u; [now symmetry|]. eapply nth_error_In. exact E. }
  destruct H as [(k & _ & E)|(k & a & b & _ & E1 & E2 & E)]; [exact (I k _ E)|].
  apply I in E1, E2. subst a b. clear - E. generalize dependent (ScalarModel.median l). intros. qclra.
Qed.
Lemma map_result_map {A B} (f : A -> result B) (g : A -> B) l : (forall x, In x l -> f x = Ok (g x)) -> map_result f l = Ok (map g l).
Proof.
  induction l as [|x l IH]; intros H; [reflexivity|]. cbn [map_result map]. rewrite (H x (or_introl eq_refl)). cbn [bind].
  rewrite IH by (intros; apply H; now right). reflexivity.
Qed.
Lemma combine_map {A B C} (f : A -> B) (g : A -> C) l : combine (map f l) (map g l) = map (fun x => (f x, g x)) l.
Proof. induction l; cbn; congruence. Qed.
Lemma finite_ratios (p q : Qc) (l : list Qc) : q <> 0 -> (exists i, In i l /\ i <> 0) ->
  let f := finite (map (fun i => n_div (Fin (p * i)) (Fin (q * i))) l) in f <> [] /\ Forall (fun x => x = p / q) f.
Proof.
  intros Q. cbv zeta. unfold finite. induction l as [|i l IH]; [intros (j & [] & _)|]. intros (j & [<- | J] & N); cbn [map flat_map].
  - assert (NZ : q * i <> 0) by (intros Z; apply Qcmult_integral in Z; destruct Z; contradiction).
    unfold n_div at 1 3. rewrite (nz_eqb _ NZ). cbn [app]. split; [discriminate|]. constructor; [field; auto|].
    clear IH. induction l as [|k l IH]; [constructor|]. cbn [map flat_map]. apply Forall_app. split; [|exact IH].
    unfold n_div. destruct (Qc_eqb (q * k) 0) eqn:E; [|constructor; [|constructor]].
    + unfold inf_sign. destruct (Qc_eqb (p * k) 0); [constructor|]. destruct (Qc_ltb 0 (p * k)); constructor.
    + qc_bool. assert (k <> 0) by (intros ->; apply E; ring). field. auto.
  - destruct IH as [H1 H2]; [exists j; auto|]. split; [intros E; apply app_eq_nil in E; destruct E; contradiction|].
    apply Forall_app. split; [|exact H2]. unfold n_div. destruct (Qc_eqb (q * i) 0) eqn:E; [|constructor; [|constructor]].
    + unfold inf_sign. destruct (Qc_eqb (p * i) 0); [constructor|]. destruct (Qc_ltb 0 (p * i)); constructor.
    + qc_bool. assert (i <> 0) by (intros ->; apply E; ring). field. auto.
Qed.
Lemma gain_median (p q : Qc) l : q <> 0 -> (exists i, In i l /\ i <> 0) ->
  match finite (map (fun i => n_div (Fin (p * i)) (Fin (q * i))) l) with [] => NaN | k => Fin (ScalarModel.median k) end = Fin (p / q).
Proof.
  intros Q H. destruct (finite_ratios p q l Q H) as [A B]. destruct (finite _) as [|x k]; [contradiction|]. f_equal. now apply median_const.
Qed.
(* true resistance R, fluxes fs *)
Lemma recover rd d r s f0 i0 ub R G (fs : list Qc) : works d r s f0 i0 -> round_gain rd G = Ok G ->
  match gain d with VperA g => G * r = g * R | Amps g => G * R = g * r end -> R <> 0 ->
  (exists f, In f fs /\ charge d * f + i0 <> 0) ->
  forall before, (default None ub = Hz /\ before = map Fin fs) \/ (default None ub = Ampere /\ before = map (fun f => Fin (charge d * f + i0)) fs) \/
                 (default None ub = Volt /\ before = map (fun f => Fin (r * (charge d * f + i0))) fs) ->
  gainfromresponse rd d None Hz (map (fun f => Fin (s * (R * (charge d * f + i0)) + f0)) fs) ub before = Ok (Some (Fin G)).
Proof.
  intros W RG GR RN (f & IF & NF) before H. unfold gainfromresponse. cbn [default].
  pose proof (r_nz _ _ _ _ _ W) as A. pose proof (s_nz _ _ _ _ _ W) as B.
  rewrite (map_result_map _ (fun x => match x with Fin c => Fin ((c - f0) / s) | y => y end)).
  2:{ intros x I. apply in_map_iff in I. destruct I as (g & <- & _). unfold cpstovoltage, conv. rewrite (ctv _ _ _ _ _ W). cbn [bind eval eval1 n_mul n_add]. apply opt_fin. field. exact B. }
  cbn [bind]. rewrite map_map.
  assert (VM : map (fun x => Fin ((s * (R * (charge d * x + i0)) + f0 - f0) / s)) fs = map (fun x => Fin (R * (charge d * x + i0))) fs).
  { apply map_ext. intros x. f_equal. field. exact B. }
  rewrite VM. clear VM.
  assert (VC : match default None ub with
                 | Hz => map_result (fluxtovoltage d) before
                 | Ampere => map_result (currenttovoltage d) before
                 | Volt => Ok before
                 | _ => Err TypeError
                 end = Ok (map (fun x => Fin (r * (charge d * x + i0))) fs)).
  { assert (TM : forall (A B : Type) (f : A -> result B) (g : A -> B) (h : Qc -> A) (k : Qc -> B), (forall x, f (h x) = Ok (k x)) -> map_result f (map h fs) = Ok (map k fs)).
    { intros A0 B0 f1 g h k E. clear - E. induction fs as [|x l IH]; [reflexivity|]. cbn [map map_result]. rewrite E, IH. reflexivity. }
    destruct H as [[-> ->] | [[-> ->] | [-> ->]]]; [| |reflexivity].
    - apply TM; [intros; exact (Fin 0)|]. intros x. destruct (conversions _ _ _ _ _ W x _ _ _ (conj eq_refl (conj eq_refl eq_refl))) as (_ & _ & _ & _ & _ & _ & E & _). exact E.
    - apply TM; [intros; exact (Fin 0)|]. intros x. destruct (conversions _ _ _ _ _ W x _ _ _ (conj eq_refl (conj eq_refl eq_refl))) as (_ & _ & E & _). exact E. }
  rewrite VC. cbn [bind]. clear VC H. rewrite !map_length, Nat.eqb_refl. cbn [negb]. rewrite combine_map, !map_map. cbn [fst snd].
  set (is := map (fun x => charge d * x + i0) fs). assert (IS : exists i, In i is /\ i <> 0).
  { exists (charge d * f + i0). split; [|exact NF]. unfold is. apply in_map_iff. exists f. auto. }
  assert (M1 : map (fun x => n_div (Fin (r * (charge d * x + i0))) (Fin (R * (charge d * x + i0)))) fs = map (fun i => n_div (Fin (r * i)) (Fin (R * i))) is) by (unfold is; now rewrite map_map).
  assert (M2 : map (fun x => n_div (Fin (R * (charge d * x + i0))) (Fin (r * (charge d * x + i0)))) fs = map (fun i => n_div (Fin (R * i)) (Fin (r * i))) is) by (unfold is; now rewrite map_map).
  rewrite M1, M2. clear M1 M2. clearbody is.
  destruct (gain d) as [g|g].
  - rewrite (gain_median R r is A IS). assert (E : g * (R / r) = G) by (replace (g * (R / r)) with (g * R / r) by (field; exact A); rewrite <- GR; field; exact A).
    rewrite E, RG. reflexivity.
  - rewrite (gain_median r R is RN IS). assert (E : g * (r / R) = G) by (replace (g * (r / R)) with (g * r / R) by (field; exact RN); rewrite <- GR; field; exact RN).
    rewrite E, RG. reflexivity.
Qed.
Lemma never_none rd d t ua a ub b : gainfromresponse rd d t ua a ub b <> Ok None.
Proof.
  unfold gainfromresponse. match goal with |- (let! x := ?e in _) <> _ => destruct e; [|discriminate] end. cbn [bind].
  match goal with |- (let! x := ?e in _) <> _ => destruct e; [|discriminate] end. cbn [bind].
  destruct (negb _); [discriminate|].
  match goal with |- match ?e with _ => _ end <> _ => destruct e end; try (destruct (rm rd), (rbase rd); discriminate).
  destruct (round_gain rd _); discriminate.
Qed.
Lemma gain_counts rd d t ua a ub b : default (Some t) ua = Counts -> gainfromresponse rd d (Some t) ua a ub b = Err TypeError.
Proof. intros U. unfold gainfromresponse. rewrite U. reflexivity. Qed.

(* ---- the units that are meant ---- *)
Lemma meant_default t u k : meant t u k <-> default t u = k.
Proof.
  unfold meant, default. destruct u, t; cbn; split;
    intros H; try (destruct H as [[H ->]|[(H & H1 & ->)|(H & (x & H1) & ->)]]); try congruence; subst k; try (left; split; congruence);
    right; [right|left]; repeat split; eauto.
Qed.
Lemma response_meant : forall d r s f0 i0, works d r s f0 i0 -> forall f i v c t, signals d r s f0 i0 f i v c -> (forall x, t = Some x -> x <> 0) ->
  (forall u x, (meant t u Hz /\ x = c) \/ (meant t u Ampere /\ x = i) \/ (meant t u Volt /\ x = v) \/
               (meant t u Counts /\ exists time, t = Some time /\ x = c * time) ->
     responsetoflux d t u (Fin x) = Ok (Fin f) /\ conv (fluxop d t u) (Fin x) = Ok (Fin f)).
Proof. intros; repeat match goal with H : _ |- _ => progress rewrite !meant_default in H end; eapply response; eauto. Qed.
Lemma dark_rate_meant : forall d r s f0 i0 t u l m, works d r s f0 i0 -> meant t u Hz -> is_median (values l) m -> 0 < s * r ->
  exists j, calibratedark d t u l = Ok {| vmax := vmax d; oscillator := oscillator d; gain := gain d; dark := Fin j; charge := charge d |} /\
    0 <= j /\ (0 <= m -> f0 <= m -> s * (r * j) + f0 = m) /\ (m <= f0 -> 0 <= f0 -> j = 0).
Proof. intros; repeat match goal with H : _ |- _ => progress rewrite !meant_default in H end; eapply dark_rate; eauto. Qed.
Lemma dark_current_meant : forall d t u l m, meant t u Ampere -> is_median (values l) m ->
  exists j, calibratedark d t u l = Ok {| vmax := vmax d; oscillator := oscillator d; gain := gain d; dark := Fin j; charge := charge d |} /\
    (0 <= m -> j = m) /\ (m <= 0 -> j = 0).
Proof. intros; repeat match goal with H : _ |- _ => progress rewrite !meant_default in H end; eapply dark_current; eauto. Qed.
Lemma F0_rate_meant : forall d r s f0 i0 t u l m k, works d r s f0 i0 ->
  (meant t u Hz /\ k = 1) \/ (meant t u Counts /\ exists time, t = Some time /\ time <> 0 /\ k * time = 1) -> is_median (values l) m ->
  exists o x, oscillator d = Some o /\
    calibrateF0 d t u l = Ok {| vmax := vmax d; oscillator := Some {| Fmax := Fmax o; F0 := Fin x; Vosc := Vosc o |}; gain := gain d; dark := dark d; charge := charge d |} /\
    0 <= x /\ (0 <= k * m -> s * (r * i0) <= k * m -> s * (r * i0) + x = k * m) /\ (k * m <= s * (r * i0) -> 0 <= s * (r * i0) -> x = 0).
Proof. intros; repeat match goal with H : _ |- _ => progress rewrite !meant_default in H end; eapply F0_rate; eauto. Qed.
Lemma dark_counts_meant : forall d t u l, meant (Some t) u Counts -> t <> 0 -> calibratedark d (Some t) u l = Err NotImplementedError.
Proof. intros; repeat match goal with H : _ |- _ => progress rewrite !meant_default in H end; eapply dark_counts; eauto. Qed.
Lemma recover_meant : forall rd d r s f0 i0 ub R G (fs : list Qc), works d r s f0 i0 -> round_gain rd G = Ok G ->
  match gain d with VperA g => G * r = g * R | Amps g => G * R = g * r end -> R <> 0 ->
  (exists f, In f fs /\ charge d * f + i0 <> 0) ->
  forall before, (meant None ub Hz /\ before = map Fin fs) \/ (meant None ub Ampere /\ before = map (fun f => Fin (charge d * f + i0)) fs) \/
                 (meant None ub Volt /\ before = map (fun f => Fin (r * (charge d * f + i0))) fs) ->
  gainfromresponse rd d None Hz (map (fun f => Fin (s * (R * (charge d * f + i0)) + f0)) fs) ub before = Ok (Some (Fin G)).
Proof. intros; repeat match goal with H : _ |- _ => progress rewrite !meant_default in H end; eapply recover; eauto. Qed.
Lemma gain_counts_meant : forall rd d t ua a ub b, meant (Some t) ua Counts -> gainfromresponse rd d (Some t) ua a ub b = Err TypeError.
Proof. intros; repeat match goal with H : _ |- _ => progress rewrite !meant_default in H end; eapply gain_counts; eauto. Qed.
