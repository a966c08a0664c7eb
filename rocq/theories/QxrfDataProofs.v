From Verif Require Import QxrfModel QxrfSpec.
From Verif Require PathModel Text.
From Coq Require Import String Lia.
Local Open Scope string_scope.
Local Open Scope list_scope.
Local Open Scope Qc_scope.

Lemma quant_eqb_spec a b : quant_eqb a b = true <-> a = b.
Proof. destruct a, b; split; intros E; try discriminate; reflexivity. Qed.
Lemma key_eqb_spec a b : key_eqb a b = true <-> a = b.
Proof.
  destruct a as [i p| |], b as [j q| |]; cbn; split; intros E; try discriminate; try reflexivity.
  - apply andb_prop in E. destruct E as [E F]. apply String.eqb_eq in E. apply quant_eqb_spec in F. congruence.
  - injection E as <- <-. rewrite String.eqb_refl. apply quant_eqb_spec. reflexivity.
Qed.
Lemma key_eqb_refl k : key_eqb k k = true. Proof. apply key_eqb_spec. reflexivity. Qed.
Lemma key_dec (a b : key) : {a = b} + {a <> b}.
Proof. destruct (key_eqb a b) eqn:E; [left; apply key_eqb_spec; exact E|right]. intros ->. rewrite key_eqb_refl in E. discriminate. Qed.
Lemma key_neq a b : a <> b -> key_eqb a b = false.
Proof. intros N. destruct (key_eqb a b) eqn:E; [|reflexivity]. apply key_eqb_spec in E. contradiction. Qed.

Notation view d k := (lookup key_eqb k d).
Lemma view_assign (d : table) k v j : view (assign key_eqb k v d) j = if key_eqb j k then Some v else view d j.
Proof.
  induction d as [|[k' v'] d IH]; cbn [assign lookup].
  - destruct (key_eqb j k); reflexivity.
  - destruct (key_eqb k k') eqn:E; cbn [lookup].
    + apply key_eqb_spec in E. subst k'. destruct (key_eqb j k); reflexivity.
    + rewrite IH. destruct (key_eqb j k') eqn:F; [|reflexivity]. destruct (key_eqb j k) eqn:G; [|reflexivity].
      apply key_eqb_spec in F, G. subst. rewrite key_eqb_refl in E. discriminate.
Qed.

(* the filled values *)
Definition filled units (static data : table) k : option value :=
  match view data k with
  | Some v => Some (quantity (unit_for units k) v)
  | None => match view static k with Some v => Some (quantity (unit_for units k) v) | None => None end
  end.
Lemma quantity_idem u v : quantity u (quantity u v) = quantity u v.
Proof. destruct v as [[d|] x]; reflexivity. Qed.
Lemma view_fill units static data k j : view (fill units static data k) j = if key_eqb j k then filled units static data k else view data j.
Proof.
  unfold fill, filled. destruct (view data k) as [v|] eqn:E.
  - rewrite view_assign. reflexivity.
  - destruct (view static k) as [v|]; [rewrite view_assign; reflexivity|]. destruct (key_eqb j k) eqn:F; [|reflexivity].
    apply key_eqb_spec in F. subst. exact E.
Qed.
Lemma filled_fill units static data k j : filled units static (fill units static data k) j = filled units static data j.
Proof.
  unfold filled at 1. rewrite view_fill. destruct (key_eqb j k) eqn:F; [|reflexivity]. apply key_eqb_spec in F. subst j.
  unfold filled. destruct (view data k) as [v|]; [rewrite quantity_idem; reflexivity|].
  destruct (view static k) as [v|]; [rewrite quantity_idem|]; reflexivity.
Qed.
Lemma view_fills units static l : forall data j,
  view (fold_left (fill units static) l data) j = if existsb (key_eqb j) l then filled units static data j else view data j.
Proof.
  induction l as [|k l IH]; intros data j; [reflexivity|]. cbn [fold_left existsb]. rewrite IH, filled_fill, view_fill.
  destruct (key_eqb j k) eqn:F; cbn [orb]; [|reflexivity]. apply key_eqb_spec in F. subst. destruct (existsb (key_eqb k) l); reflexivity.
Qed.
Lemma in_fields a b k : existsb (key_eqb k) (fields [a; b]) = true <-> field a b k.
Proof.
  rewrite existsb_exists. split.
  - intros (j & I & E). apply key_eqb_spec in E. subst j. cbn in I. intuition subst; cbn; auto.
  - intros H. exists k. split; [|apply key_eqb_refl]. destruct k as [i q| |]; cbn in *; [|tauto|tauto]. destruct H as [<- | <-], q; tauto.
Qed.
Lemma provided_filled units data static k o : provided units data static k o ->
  filled units static data k = match o with Some (d, x) => Some (Some d, x) | None => None end.
Proof.
  assert (Q : forall w v, with_units units k w v -> quantity (unit_for units k) w = (Some (fst v), snd v)).
  { intros w v H. inversion H; subst; unfold quantity, unit_for; cbn [fst snd].
    - reflexivity.
    - rewrite H0. reflexivity.
    - rewrite H0. cbn. f_equal. f_equal. ring. }
  intros H. unfold filled. inversion H as [w v E U|w v E E' U|E E']; subst; rewrite E.
  - rewrite (Q _ _ U). destruct v. reflexivity.
  - rewrite E', (Q _ _ U). destruct v. reflexivity.
  - rewrite E'. reflexivity.
Qed.

Definition typed (data : table) k : Prop := forall v, view data k = Some v -> fst v <> None.
Definition rightv (data : table) k : Prop := forall v, view data k = Some v -> fst v = Some (dimension k).
Lemma dim_eqb_spec a b : dim_eqb a b = true <-> a = b.
Proof. destruct a, b; split; intros E; try discriminate; reflexivity. Qed.
Lemma convert_cases k data : typed data k ->
  (rightv data k /\ exists d', convert k (dimension k) data = Ok d' /\ forall j, view d' j = view data j) \/
  (~ rightv data k /\ convert k (dimension k) data = Err TypeError).
Proof.
  intros T. unfold convert. destruct (view data k) as [[o x]|] eqn:E.
  - destruct o as [e|]; [|destruct (T _ E); reflexivity]. unfold to. cbn [fst]. destruct (dim_eqb e (dimension k)) eqn:D; cbn [bind].
    + left. apply dim_eqb_spec in D. subst e. split; [intros v V; rewrite E in V; injection V as <-; reflexivity|]. eexists. split; [reflexivity|]. intros j. rewrite view_assign.
      destruct (key_eqb j k) eqn:J; [|reflexivity]. apply key_eqb_spec in J. congruence.
    + right. split; [|reflexivity]. intros R. specialize (R _ E). cbn in R. assert (e = dimension k) by congruence. apply dim_eqb_spec in H. congruence.
  - left. split; [intros v V; congruence|]. exists data. split; [reflexivity|reflexivity].
Qed.

Lemma to_eq d e x : to d (Some e, x) = if dim_eqb e d then Ok (Some e, x) else Err TypeError. Proof. reflexivity. Qed.
(* what becomes of the rate *)
Definition rate_after (data : table) amount rate (t : num) : option value :=
  match view data rate with
  | Some v => Some v
  | None => match view data amount with Some v => Some (Some Rate, n_div (snd v) t) | None => None end
  end.
Lemma rate_cases amount rate data t : dimension amount = Dimless -> dimension rate = Rate -> amount <> rate ->
  typed data amount -> typed data rate -> view data Time = Some (Some Sec, t) ->
  (rightv data amount /\ rightv data rate /\ exists d', rate_of amount rate data = Ok d' /\
     forall j, view d' j = if key_eqb j rate then rate_after data amount rate t else view data j) \/
  (~ (rightv data amount /\ rightv data rate) /\ rate_of amount rate data = Err TypeError).
Proof.
  intros DA DR N TA TR TM. unfold rate_of.
  destruct (view data amount) as [[o x]|] eqn:E.
  - destruct o as [e|]; [|destruct (TA _ E); reflexivity]. rewrite to_eq. destruct (dim_eqb e Dimless) eqn:D; cbn [bind].
    2:{ right. split; [|reflexivity]. intros [R _]. specialize (R _ E). cbn in R. rewrite DA in R. assert (e = Dimless) by congruence.
        apply dim_eqb_spec in H. congruence. }
    apply dim_eqb_spec in D. subst e.
    assert (RA : rightv data amount). { intros v V. rewrite E in V. injection V as <-. cbn. congruence. }
    rewrite (view_assign data amount _ rate), (key_neq rate amount) by congruence.
    set (data1 := assign key_eqb amount (Some Dimless, x) data).
    assert (V1 : forall j, view data1 j = view data j).
    { intros j. unfold data1. rewrite view_assign. destruct (key_eqb j amount) eqn:J; [|reflexivity]. apply key_eqb_spec in J. congruence. }
    destruct (view data rate) as [v|] eqn:ER.
    + cbn [bind]. destruct (convert_cases rate data1) as [(R & d' & C & V) | [R C]].
      * intros w. rewrite V1. apply TR.
      * left. split; [exact RA|]. split; [intros w W; apply R; rewrite V1; exact W|]. rewrite DR in C. exists d'. split; [exact C|]. intros j. rewrite V, V1.
        unfold rate_after. rewrite ER. destruct (key_eqb j rate) eqn:J; [|reflexivity]. apply key_eqb_spec in J. congruence.
      * right. rewrite DR in C. split; [|exact C]. intros [_ R']. apply R. intros w W. apply R'. rewrite <- V1. exact W.
    + rewrite V1, TM. cbn [bind snd]. fold data1. set (data2 := assign key_eqb rate (Some Rate, n_div x t) data1).
      destruct (convert_cases rate data2) as [(R & d' & C & V) | [R C]].
      * intros w W. unfold data2 in W. rewrite view_assign, key_eqb_refl in W. injection W as <-. discriminate.
      * left. split; [exact RA|]. split; [intros w W; congruence|]. rewrite DR in C. exists d'. split; [exact C|]. intros j. rewrite V. unfold data2.
        rewrite view_assign. unfold rate_after. rewrite ER, E. cbn [snd]. destruct (key_eqb j rate); [reflexivity|apply V1].
      * destruct R. intros w W. unfold data2 in W. rewrite view_assign, key_eqb_refl in W. injection W as <-. cbn. congruence.
  - cbn [bind]. assert (RA : rightv data amount) by (intros v V; congruence).
    destruct (convert_cases rate data TR) as [(R & d' & C & V) | [R C]]; rewrite DR in C.
    + left. split; [exact RA|]. split; [exact R|]. exists d'. split; [exact C|]. intros j. rewrite V. unfold rate_after. rewrite E.
      destruct (key_eqb j rate) eqn:J; [|reflexivity]. apply key_eqb_spec in J. subst j. destruct (view data rate); reflexivity.
    + right. split; [|exact C]. intros [_ R']. apply R. exact R'.
Qed.

Definition after (data : table) id (t : num) (j : key) : option value :=
  if key_eqb j (Resp id cps) then rate_after data (Resp id counts) (Resp id cps) t
  else if key_eqb j (Resp id flux) then rate_after data (Resp id photons) (Resp id flux) t
  else view data j.
Lemma respond_cases id data t : (forall q, typed data (Resp id q)) -> view data Time = Some (Some Sec, t) ->
  ((forall q, rightv data (Resp id q)) /\ exists d', respond id data = Ok d' /\ forall j, view d' j = after data id t j) \/
  (~ (forall q, rightv data (Resp id q)) /\ respond id data = Err TypeError).
Proof.
  intros T TM. unfold respond.
  destruct (rate_cases (Resp id counts) (Resp id cps) data t eq_refl eq_refl ltac:(discriminate) (T _) (T _) TM) as [(A & B & d1 & E1 & V1) | [N E1]];
    rewrite E1; cbn [bind].
  2:{ right. split; [|reflexivity]. intros H. apply N. split; apply H. }
  assert (S1 : forall j, j <> Resp id cps -> view d1 j = view data j) by (intros j J; rewrite V1, key_neq by exact J; reflexivity).
  assert (T1 : forall q, typed d1 (Resp id q)).
  { intros q. destruct (key_dec (Resp id q) (Resp id cps)) as [-> | J]; [|intros v V; rewrite S1 in V by exact J; exact (T _ _ V)].
    intros v V. rewrite V1, key_eqb_refl in V. unfold rate_after in V. destruct (view data (Resp id cps)) as [w|] eqn:W; [injection V as <-; exact (T _ _ W)|].
    destruct (view data (Resp id counts)); [|discriminate]. injection V as <-. discriminate. }
  destruct (rate_cases (Resp id photons) (Resp id flux) d1 t eq_refl eq_refl ltac:(discriminate) (T1 _) (T1 _) ltac:(rewrite S1 by discriminate; exact TM))
    as [(C & D & d2 & E2 & V2) | [N E2]]; rewrite E2; cbn [bind].
  2:{ right. split; [|reflexivity]. intros H. apply N. split; intros v V; rewrite S1 in V by discriminate; exact (H _ _ V). }
  assert (S2 : forall j, j <> Resp id flux -> view d2 j = view d1 j) by (intros j J; rewrite V2, key_neq by exact J; reflexivity).
  destruct (convert_cases (Resp id current) d2) as [(F & d3 & E3 & V3) | [N E3]].
  - intros v V. rewrite S2 in V by discriminate. exact (T1 _ _ V).
  - cbn [dimension] in E3. left. split.
    + intros q v V. destruct q; [apply A|apply B|apply F|apply C|apply D]; rewrite ?S2, ?S1 by discriminate; exact V.
    + exists d3. split; [exact E3|]. intros j. rewrite V3. unfold after. destruct (key_eqb j (Resp id cps)) eqn:J1.
      * apply key_eqb_spec in J1. subst j. rewrite S2, V1, key_eqb_refl by discriminate. reflexivity.
      * rewrite V2. destruct (key_eqb j (Resp id flux)) eqn:J2.
        -- unfold rate_after. rewrite !S1 by discriminate. reflexivity.
        -- rewrite V1, J1. reflexivity.
  - right. cbn [dimension] in E3. split; [|exact E3]. intros H. apply N. intros v V. rewrite S2, S1 in V by discriminate. exact (H _ _ V).
Qed.

(* ---- validation ---- *)
Definition stored (o : option (dim * num)) : option value := match o with Some (d, x) => Some (Some d, x) | None => None end.
Definition rate_spec (p : key -> option (dim * num)) (rate amount : key) (t : num) : option value :=
  match p rate, p amount with
  | Some (d, x), _ => Some (Some d, x)
  | None, Some (_, c) => Some (Some Rate, n_div c t)
  | None, None => None
  end.
Lemma validate_cases units expo a b data static p : (forall k, field a b k -> provided units data static k (p k)) ->
  let t := match p Time with Some (_, x) => x | None => expo end in
  ((forall k, field a b k -> right_dimension p k) /\
   exists d', validate units expo a b data static = Ok d' /\
     view d' Time = Some (Some Sec, t) /\ view d' Ener = stored (p Ener) /\
     (forall id, id = a \/ id = b ->
        view d' (Resp id counts) = stored (p (Resp id counts)) /\ view d' (Resp id photons) = stored (p (Resp id photons)) /\
        view d' (Resp id current) = stored (p (Resp id current)) /\
        view d' (Resp id cps) = rate_spec p (Resp id cps) (Resp id counts) t /\
        view d' (Resp id flux) = rate_spec p (Resp id flux) (Resp id photons) t)) \/
  (~ (forall k, field a b k -> right_dimension p k) /\ validate units expo a b data static = Err TypeError).
Proof.
  intros P t. unfold validate. set (d0 := fold_left (fill units static) (fields [a; b]) data).
  assert (V0 : forall k, field a b k -> view d0 k = stored (p k)).
  { intros k F. unfold d0. rewrite view_fills. apply in_fields in F. rewrite F. apply in_fields in F. exact (provided_filled _ _ _ _ _ (P k F)). }
  assert (R0 : forall k, field a b k -> (right_dimension p k <-> rightv d0 k)).
  { intros k F. unfold right_dimension, rightv. rewrite (V0 k F). destruct (p k) as [[d x]|]; cbn; split; intros H v V; try discriminate.
    - injection V as <-. cbn. f_equal. exact (H _ eq_refl).
    - injection V as <-. specialize (H _ eq_refl). cbn in *. congruence. }
  assert (T0 : forall k, field a b k -> typed d0 k).
  { intros k F v V. rewrite (V0 k F) in V. destruct (p k) as [[d x]|]; [|discriminate]. injection V as <-. discriminate. }
  set (d1 := match view d0 Time with Some _ => d0 | None => assign key_eqb Time (Some Sec, expo) d0 end).
  assert (V1 : forall k, view d1 k = if key_eqb k Time then match p Time with Some (d, x) => Some (Some d, x) | None => Some (Some Sec, expo) end else view d0 k).
  { intros k. unfold d1. rewrite (V0 Time I). destruct (p Time) as [[d x]|] eqn:E; cbn [stored].
    - destruct (key_eqb k Time) eqn:K; [|reflexivity]. apply key_eqb_spec in K. subst k. rewrite (V0 Time I), E. reflexivity.
    - rewrite view_assign. reflexivity. }
  assert (T1 : forall k, field a b k -> typed d1 k).
  { intros k F v V. rewrite V1 in V. destruct (key_eqb k Time); [|exact (T0 k F v V)]. destruct (p Time) as [[d x]|]; injection V as <-; discriminate. }
  assert (R1 : forall k, field a b k -> (right_dimension p k <-> rightv d1 k)).
  { intros k F. destruct (key_dec k Time) as [-> | N].
    - unfold right_dimension, rightv. rewrite V1. cbn [key_eqb]. destruct (p Time) as [[d x]|]; split; intros H v V; try discriminate.
      + injection V as <-. cbn. f_equal. exact (H _ eq_refl).
      + injection V as <-. specialize (H _ eq_refl). cbn in *. congruence.
      + injection V as <-. reflexivity.
    - rewrite (R0 k F). unfold rightv. rewrite V1, (key_neq _ _ N). reflexivity. }
  destruct (convert_cases Time d1 (T1 Time I)) as [(RT & d2 & E2 & V2) | [N E2]]; cbn [dimension] in E2; rewrite E2; cbn [bind].
  2:{ right. split; [|reflexivity]. intros H. apply N. apply R1; [exact I|]. apply H. exact I. }
  destruct (convert_cases Ener d2) as [(RE & d3 & E3 & V3) | [N E3]]; [intros v V; rewrite V2 in V; exact (T1 Ener I v V)| |]; cbn [dimension] in E3; rewrite E3; cbn [bind].
  2:{ right. split; [|reflexivity]. intros H. apply N. intros v V. rewrite V2 in V. exact (proj1 (R1 Ener I) (H Ener I) v V). }
  assert (W3 : forall k, view d3 k = view d1 k) by (intros k; rewrite V3, V2; reflexivity).
  assert (TM : view d3 Time = Some (Some Sec, t)).
  { rewrite W3, V1. cbn [key_eqb]. unfold t. destruct (p Time) as [[d x]|] eqn:E; [|reflexivity].
    assert (Q : view d1 Time = Some (Some d, x)) by (rewrite V1; reflexivity). specialize (RT _ Q). cbn in RT. congruence. }
  assert (T3 : forall k, field a b k -> typed d3 k) by (intros k F v V; rewrite W3 in V; exact (T1 k F v V)).
  assert (R3 : forall k, field a b k -> (right_dimension p k <-> rightv d3 k)) by (intros k F; rewrite (R1 k F); unfold rightv; rewrite W3; reflexivity).
  assert (P3 : forall id q, id = a \/ id = b -> view d3 (Resp id q) = stored (p (Resp id q))).
  { intros id q F. rewrite W3, V1. cbn [key_eqb]. apply V0. exact F. }
  destruct (respond_cases a d3 t) as [(RA & d4 & E4 & V4) | [N E4]]; [intros q; apply T3; left; reflexivity|exact TM| |]; rewrite E4; cbn [bind].
  2:{ right. split; [|reflexivity]. intros H. apply N. intros q. apply R3; [left; reflexivity|]. apply H. left. reflexivity. }
  assert (T4 : forall q, typed d4 (Resp b q)).
  { intros q v V. rewrite V4 in V. unfold after in V.
    destruct (key_eqb (Resp b q) (Resp a cps)) eqn:J1; [|destruct (key_eqb (Resp b q) (Resp a flux)) eqn:J2].
    - unfold rate_after in V. destruct (view d3 (Resp a cps)) as [w|] eqn:W; [injection V as <-; exact (T3 (Resp a cps) (or_introl eq_refl) _ W)|].
      destruct (view d3 (Resp a counts)); [|discriminate]. injection V as <-. discriminate.
    - unfold rate_after in V. destruct (view d3 (Resp a flux)) as [w|] eqn:W; [injection V as <-; exact (T3 (Resp a flux) (or_introl eq_refl) _ W)|].
      destruct (view d3 (Resp a photons)); [|discriminate]. injection V as <-. discriminate.
    - exact (T3 (Resp b q) (or_intror eq_refl) _ V). }
  assert (TM4 : view d4 Time = Some (Some Sec, t)) by (rewrite V4; exact TM).
  assert (RB : (forall q, rightv d4 (Resp b q)) <-> (forall q, rightv d3 (Resp b q))).
  { destruct (String.string_dec a b) as [<- | NE].
    - split; intros _; [exact RA|]. intros q v V. rewrite V4 in V. unfold after in V.
      destruct (key_eqb (Resp a q) (Resp a cps)) eqn:J1; [|destruct (key_eqb (Resp a q) (Resp a flux)) eqn:J2].
      + apply key_eqb_spec in J1. rewrite J1. unfold rate_after in V. destruct (view d3 (Resp a cps)) as [w|] eqn:W; [injection V as <-; exact (RA _ _ W)|].
        destruct (view d3 (Resp a counts)); [|discriminate]. injection V as <-. reflexivity.
      + apply key_eqb_spec in J2. rewrite J2. unfold rate_after in V. destruct (view d3 (Resp a flux)) as [w|] eqn:W; [injection V as <-; exact (RA _ _ W)|].
        destruct (view d3 (Resp a photons)); [|discriminate]. injection V as <-. reflexivity.
      + exact (RA _ _ V).
    - assert (Q : forall q, view d4 (Resp b q) = view d3 (Resp b q)).
      { intros q. rewrite V4. unfold after. rewrite !key_neq by congruence. reflexivity. }
      split; intros H q v V; [apply (H q); rewrite Q|apply (H q); rewrite <- Q]; exact V. }
  destruct (respond_cases b d4 t T4 TM4) as [(RB' & d5 & E5 & V5) | [N E5]]; rewrite E5.
  2:{ right. split; [|reflexivity]. intros H. apply N. apply RB. intros q. apply R3; [right; reflexivity|]. apply H. right. reflexivity. }
  left. pose proof (proj1 RB RB') as RB3.
  assert (AF : forall d id q, after d id t (Resp id q) =
    match q with cps => rate_after d (Resp id counts) (Resp id cps) t | flux => rate_after d (Resp id photons) (Resp id flux) t | _ => view d (Resp id q) end).
  { intros d id q. unfold after. destruct q; cbn [key_eqb quant_eqb]; rewrite ?String.eqb_refl, ?Bool.andb_false_r; reflexivity. }
  split.
  { intros k F. apply R3; [exact F|]. destruct k as [i q| |]; [|intros v V; rewrite W3 in V; apply RT; exact V|intros v V; rewrite V3 in V; apply RE; exact V].
    destruct F as [-> | ->]; [apply RA|apply RB3]. }
  exists d5. split; [reflexivity|]. split; [rewrite V5; exact TM4|]. split; [rewrite V5; cbn; rewrite V4; cbn; rewrite W3, V1; apply V0; exact I|].
  assert (FIN : forall id, id = a \/ id = b -> forall q, view d5 (Resp id q) = after d3 id t (Resp id q)).
  { intros id F q. rewrite V5. destruct (String.string_dec a b) as [<- | NE].
    - assert (id = a) as -> by (destruct F; assumption). rewrite !AF. unfold rate_after. rewrite !V4, !AF. unfold rate_after.
      destruct q; try reflexivity;
        repeat match goal with |- context [match view ?d ?k with _ => _ end] => destruct (view d k) end; reflexivity.
    - destruct F as [-> | ->].
      + unfold after at 1. rewrite !key_neq by congruence. apply V4.
      + rewrite !AF. unfold rate_after. assert (Q : forall q, view d4 (Resp b q) = view d3 (Resp b q)).
        { intros q'. rewrite V4. unfold after. rewrite !key_neq by congruence. reflexivity. }
        destruct q; rewrite !Q; reflexivity. }
  intros id F. rewrite !(FIN id F), !AF. unfold rate_after, rate_spec. rewrite !(P3 id) by exact F.
  split; [reflexivity|]. split; [reflexivity|]. split; [reflexivity|].
  split.
  - destruct (p (Resp id cps)) as [[d x]|]; [reflexivity|]. destruct (p (Resp id counts)) as [[d x]|]; reflexivity.
  - destruct (p (Resp id flux)) as [[d x]|]; [reflexivity|]. destruct (p (Resp id photons)) as [[d x]|]; reflexivity.
Qed.

(* the rates in terms of what is given *)
Lemma validate_id21 expo (data static : table) x : lookup key_eqb (Resp "I0" current) data = Some ((None, Fin x) : value) ->
  (forall k, field "I0" "It" k -> exists o, provided id21_units data static k o) ->
  validate id21_units expo "I0" "It" data static = Err TypeError.
Proof.
  intros E H.
  assert (Q : exists p, forall k, field "I0" "It" k -> provided id21_units data static k (p k)).
  { destruct (H (Resp "I0" counts) (or_introl eq_refl)) as (a1 & A1). destruct (H (Resp "I0" cps) (or_introl eq_refl)) as (a2 & A2).
    destruct (H (Resp "I0" current) (or_introl eq_refl)) as (a3 & A3). destruct (H (Resp "I0" photons) (or_introl eq_refl)) as (a4 & A4).
    destruct (H (Resp "I0" flux) (or_introl eq_refl)) as (a5 & A5). destruct (H (Resp "It" counts) (or_intror eq_refl)) as (b1 & B1).
    destruct (H (Resp "It" cps) (or_intror eq_refl)) as (b2 & B2). destruct (H (Resp "It" current) (or_intror eq_refl)) as (b3 & B3).
    destruct (H (Resp "It" photons) (or_intror eq_refl)) as (b4 & B4). destruct (H (Resp "It" flux) (or_intror eq_refl)) as (b5 & B5).
    destruct (H Time I) as (c1 & C1). destruct (H Ener I) as (c2 & C2).
    exists (fun k => match k with
                     | Time => c1 | Ener => c2
                     | Resp i q => if String.eqb i "I0" then match q with counts => a1 | cps => a2 | current => a3 | photons => a4 | flux => a5 end
                                   else match q with counts => b1 | cps => b2 | current => b3 | photons => b4 | flux => b5 end
                     end).
    intros k F. destruct k as [i q| |]; [|exact C1|exact C2]. destruct F as [-> | ->]; cbn; destruct q; assumption. }
  destruct Q as (p & P). destruct (validate_cases id21_units expo "I0" "It" data static p P) as [[R _] | [_ R]]; [|exact R].
  exfalso. pose proof (P (Resp "I0" current) (or_introl eq_refl)) as A. specialize (R (Resp "I0" current) (or_introl eq_refl)).
  assert (Z : p (Resp "I0" current) = Some (Rate, Fin (x * 1))).
  { inversion A as [w v L U EQ|w v L L' U EQ|L L' EQ]; try congruence. rewrite E in L. injection L as <-.
    inversion U as [|d f y LU EQ1 EQ2|y LU]; subst.
    - cbn in LU. injection LU as <- <-. reflexivity.
    - cbn in LU. discriminate. }
  specialize (R _ Z). discriminate.
Qed.

(* ---- gains and devices ---- *)
Lemma mem_view (data : table) k : mem key_eqb k data = true <-> exists v, view data k = Some v.
Proof. unfold mem. destruct (view data k); split; intros H; try reflexivity; try discriminate; [eauto|]. destruct H; discriminate. Qed.
Lemma gain_source_spec data dark id :
  let has k := exists v, view data k = Some v in
  (gain_source data dark id = Some current <-> has Ener /\ dark = false /\ has (Resp id cps) /\ has (Resp id current)) /\
  (gain_source data dark id = Some flux <-> has Ener /\ dark = false /\ has (Resp id cps) /\ ~ has (Resp id current) /\ has (Resp id flux)) /\
  (forall q, gain_source data dark id = Some q -> q = current \/ q = flux).
Proof.
  intros has. unfold has. setoid_rewrite <- mem_view. unfold gain_source.
  destruct (mem key_eqb Ener data), dark, (mem key_eqb (Resp id cps) data), (mem key_eqb (Resp id current) data), (mem key_eqb (Resp id flux) data); cbn;
    (split; [|split]); try (split; intros H); try (intros q E; injection E as <-; auto); try discriminate; try reflexivity; intuition congruence.
Qed.
Lemma check_unknown known derives dev reset : check_device known derives dev None reset = Ok dev.
Proof. reflexivity. Qed.
Lemma name_true name : name <> "" -> negb (String.eqb name "") = true.
Proof. intros N. apply String.eqb_neq in N. rewrite N. reflexivity. Qed.
Lemma check_used known derives dev name reset : name <> "" ->
  (dev = None -> reset = false -> check_device known derives dev (Some name) reset = Err RuntimeError) /\
  (forall cls, lookup String.eqb name known = Some cls ->
     (dev = None -> reset = true -> check_device known derives dev (Some name) reset = Ok (Some cls)) /\
     (forall c, dev = Some c -> derives c cls = true -> check_device known derives dev (Some name) reset = Ok dev) /\
     (forall c, dev = Some c -> derives c cls = false -> check_device known derives dev (Some name) reset = Err RuntimeError)) /\
  (lookup String.eqb name known = None -> check_device known derives dev (Some name) reset = Err RuntimeError).
Proof.
  intros N. unfold check_device, generate, factory. rewrite (name_true _ N). split; [intros -> ->; reflexivity|]. split.
  - intros cls L. rewrite L. split; [intros -> ->; reflexivity|]. split; intros c -> D; cbn [bind]; rewrite D; reflexivity.
  - intros L. rewrite L. destruct dev; [reflexivity|]. destruct reset; reflexivity.
Qed.
Lemma check_unused known derives dev reset :
  (dev = None -> check_device known derives dev (Some "") reset = Ok None) /\
  (forall c, dev = Some c -> lookup String.eqb "" known = None -> check_device known derives dev (Some "") reset = Err RuntimeError).
Proof.
  split; [intros ->; reflexivity|]. intros c -> L. unfold check_device, generate, factory. cbn [String.eqb negb]. rewrite L. destruct reset; reflexivity.
Qed.

Lemma qabs_le x y : qabs x <= y <-> - y <= x /\ x <= y.
Proof.
  unfold qabs. destruct (Qc_ltb x 0) eqn:E.
  - apply Qc_ltb_lt in E. split; [intros H; split; qclra|intros [A B]; qclra].
  - assert (0 <= x). { apply Qcnot_lt_le. intros L. apply Qc_ltb_lt in L. congruence. } split; [intros H'; split; qclra|intros [A B]; exact B].
Qed.
Lemma isclose_spec a b : isclose a b = true <-> exists m, (m = b \/ m = - b) /\ 0 <= m /\
  - (Q2Qc (1 # 100000000) + Q2Qc (1 # 100000) * m) <= a - b /\ a - b <= Q2Qc (1 # 100000000) + Q2Qc (1 # 100000) * m.
Proof.
  unfold isclose. rewrite Qc_leb_le, qabs_le.
  assert (H : (qabs b = b \/ qabs b = - b) /\ 0 <= qabs b).
  { unfold qabs. destruct (Qc_ltb b 0) eqn:E; [apply Qc_ltb_lt in E; split; [right; reflexivity|qclra]|].
    split; [left; reflexivity|]. apply Qcnot_lt_le. intros L. apply Qc_ltb_lt in L. congruence. }
  destruct H as [[H | H] P]; split.
  - intros Q. exists (qabs b). split; [left; exact H|]. split; [exact P|exact Q].
  - intros (m & M & Z & Q). assert (m = qabs b) as <-; [|exact Q]. rewrite H in *. destruct M as [-> | ->]; [reflexivity|]. generalize dependent b. intros. qclra.
  - intros Q. exists (qabs b). split; [right; exact H|]. split; [exact P|exact Q].
  - intros (m & M & Z & Q). assert (m = qabs b) as <-; [|exact Q]. rewrite H in *. destruct M as [-> | ->]; [|reflexivity]. generalize dependent b. intros. qclra.
Qed.
Lemma set_gain_spec asked data :
  set_diode_gain true None None = Err RuntimeError /\
  set_diode_gain true None (Some data) = Ok data /\ set_diode_gain true (Some asked) None = Ok asked /\
  (isclose asked data = true -> set_diode_gain true (Some asked) (Some data) = Ok asked) /\
  (isclose asked data = false -> set_diode_gain true (Some asked) (Some data) = Err RuntimeError).
Proof. repeat split; intros E; unfold set_diode_gain; rewrite E; reflexivity. Qed.
Lemma set_gain_sound dev asked data g : set_diode_gain dev asked data = Ok g ->
  dev = true /\ (asked = Some g \/ (asked = None /\ data = Some g)) /\ (forall a d, asked = Some a -> data = Some d -> isclose a d = true).
Proof.
  unfold set_diode_gain. destruct asked as [a|], data as [d|]; [destruct (isclose a d) eqn:C| | |]; cbn [bind]; destruct dev; try discriminate; intros E;
    (split; [reflexivity|]).
  - assert (a = g) as -> by congruence. split; [left; reflexivity|]. intros x y X Y. congruence.
  - assert (a = g) as -> by congruence. split; [left; reflexivity|]. intros x y X Y. discriminate.
  - assert (d = g) as -> by congruence. split; [right; split; reflexivity|]. intros x y X Y. discriminate.
Qed.
Lemma close_small a d : - (Q2Qc (1 # 100000000)) <= a - d -> a - d <= Q2Qc (1 # 100000000) -> isclose a d = true.
Proof.
  intros A B. apply isclose_spec.
  assert (H : exists m, (m = d \/ m = - d) /\ 0 <= m).
  { destruct (Qclt_le_dec d 0); [exists (- d); split; [right; reflexivity|qclra]|exists d; split; [left; reflexivity|assumption]]. }
  destruct H as (m & M & Z). exists m. split; [exact M|]. split; [exact Z|].
  assert (P : 0 <= Q2Qc (1 # 100000) * m). { assert (K : 0 <= Q2Qc (1 # 100000)) by discriminate. generalize dependent (Q2Qc (1 # 100000)). clear - Z. intros k K. qcnra. }
  generalize dependent (Q2Qc (1 # 100000) * m). generalize dependent (Q2Qc (1 # 100000000)). intros e A B p P. clear M. split; qclra.
Qed.

Lemma prepare_no_dark ko kd de un g devs names me data static reset g0 gt : 
  prepare ko kd de un g devs names me data static reset None g0 gt = Err KeyError.
Proof. reflexivity. Qed.
Lemma prepare_ok ko kd de un g devs names me data static reset dark a0 at_ data' devs' g0 gt :
  prepare ko kd de un g devs names me data static reset (Some dark) a0 at_ = Ok (data', devs', g0, gt) ->
  validate un (g_expotime g) (g_fluxid g) (g_transid g) data static = Ok data' /\
  check_device ko de (d_optics devs) (d_optics names) reset = Ok (d_optics devs') /\
  check_device kd de (d_I0 devs) (d_I0 names) reset = Ok (d_I0 devs') /\ check_device kd de (d_It devs) (d_It names) reset = Ok (d_It devs') /\
  d_I0 devs' <> None /\ d_It devs' <> None /\
  (a0 = Some g0 \/ (a0 = None /\ exists q, gain_source data' dark (g_fluxid g) = Some q /\ me (g_fluxid g) q = Ok (Some g0))) /\
  (at_ = Some gt \/ (at_ = None /\ exists q, gain_source data' dark (g_transid g) = Some q /\ me (g_transid g) q = Ok (Some gt))).
Proof.
  unfold prepare. destruct (validate un (g_expotime g) (g_fluxid g) (g_transid g) data static) as [d1|e]; [|discriminate]. cbn [bind].
  destruct (check_device ko de (d_optics devs) (d_optics names) reset) as [o|e]; [|discriminate]. cbn [bind].
  destruct (check_device kd de (d_I0 devs) (d_I0 names) reset) as [v0|e]; [|discriminate]. cbn [bind].
  destruct (check_device kd de (d_It devs) (d_It names) reset) as [vt|e]; [|discriminate]. cbn [bind].
  destruct (match gain_source d1 dark (g_fluxid g) with None => Ok None | Some q => match v0 with None => Err AttributeError | Some _ => me (g_fluxid g) q end end)
    as [m0|e] eqn:M0; [|discriminate]. cbn [bind].
  destruct (match gain_source d1 dark (g_transid g) with None => Ok None | Some q => match vt with None => Err AttributeError | Some _ => me (g_transid g) q end end)
    as [mt|e] eqn:MT; [|discriminate]. cbn [bind].
  destruct (set_diode_gain (match v0 with Some _ => true | None => false end) a0 m0) as [x0|e] eqn:S0; [|discriminate]. cbn [bind].
  destruct (set_diode_gain (match vt with Some _ => true | None => false end) at_ mt) as [xt|e] eqn:ST; [|discriminate]. cbn [bind].
  intros E.
  assert (d1 = data') as -> by congruence. assert (x0 = g0) as -> by congruence. assert (xt = gt) as -> by congruence.
  assert ({| d_optics := o; d_I0 := v0; d_It := vt |} = devs') as <- by congruence. cbn [d_optics d_I0 d_It]. clear E.
  split; [reflexivity|]. split; [reflexivity|]. split; [reflexivity|]. split; [reflexivity|].
  apply set_gain_sound in S0. apply set_gain_sound in ST. destruct S0 as (A0 & B0 & _). destruct ST as (AT & BT & _).
  split; [intros ->; discriminate|]. split; [intros ->; discriminate|].
  destruct v0 as [v0|]; [|discriminate]. destruct vt as [vt|]; [|discriminate]. split.
  - destruct B0 as [B0 | [B0 ->]]; [left; exact B0|right]. split; [exact B0|].
    destruct (gain_source data' dark (g_fluxid g)) as [q|]; [|discriminate]. exists q. split; [reflexivity|exact M0].
  - destruct BT as [BT | [BT ->]]; [left; exact BT|right]. split; [exact BT|].
    destruct (gain_source data' dark (g_transid g)) as [q|]; [|discriminate]. exists q. split; [reflexivity|exact MT].
Qed.

(* ---- instruments ---- *)
Lemma nearer_qabs p a b : Qc_ltb (qabs (p - a)) (qabs (p - b)) = true <-> nearer p a b.
Proof.
  rewrite Qc_ltb_lt. unfold nearer.
  assert (H : forall x, (qabs x = x /\ 0 <= x) \/ (qabs x = - x /\ x <= 0)).
  { intros x. unfold qabs. destruct (Qc_ltb x 0) eqn:E; [right; apply Qc_ltb_lt in E; split; [reflexivity|qclra]|].
    left. split; [reflexivity|]. apply Qcnot_lt_le. intros L. apply Qc_ltb_lt in L. congruence. }
  generalize (p - a) (p - b). intros x y.
  assert (G : forall u v : Qc, 0 <= u -> 0 <= v -> (u < v <-> u * u < v * v)).
  { intros u v U V. split; intros L; [qcnra|]. apply Qcnot_le_lt. intros M. assert (v * v <= u * u) by qcnra.
    apply (Qclt_not_le _ _ L). assumption. }
  destruct (H x) as [[-> X] | [-> X]], (H y) as [[-> Y] | [-> Y]].
  - apply G; assumption.
  - rewrite (G x (- y)) by (try assumption; qclra). replace (- y * - y) with (y * y) by ring. reflexivity.
  - rewrite (G (- x) y) by (try assumption; qclra). replace (- x * - x) with (x * x) by ring. reflexivity.
  - rewrite (G (- x) (- y)) by qclra. replace (- x * - x) with (x * x) by ring. replace (- y * - y) with (y * y) by ring. reflexivity.
Qed.
Lemma devicename_from_spec pos l : forall n0, exists n b, devicename_from n0 l pos = (n, b) /\
  ((b = true /\ exists l1 m l2 name, l = l1 ++ m :: l2 /\ indicates pos m name /\ name <> "" /\ n = Some name /\ Forall (fun m' => silent pos m' \/ indicates pos m' "") l1) \/
   (b = false /\ Forall (fun m => silent pos m \/ indicates pos m "") l /\ ((n = n0 /\ Forall (silent pos) l) \/ (n = Some "" /\ exists m, In m l /\ indicates pos m "")))).
Proof.
  induction l as [|[mot [[[a pa] b] pb]] l IH]; intros n0; cbn [devicename_from].
  - exists n0, false. split; [reflexivity|]. right. split; [reflexivity|]. split; [constructor|]. left. split; [reflexivity|constructor].
  - destruct (lookup String.eqb mot pos) as [p|] eqn:L.
    + set (nm := if Qc_ltb (qabs (p - pa)) (qabs (p - pb)) then a else b).
      assert (I : indicates pos (mot, (a, pa, b, pb)) nm).
      { exists mot, a, pa, b, pb, p. split; [reflexivity|]. split; [exact L|]. unfold nm.
        destruct (Qc_ltb (qabs (p - pa)) (qabs (p - pb))) eqn:Q; [left; split; [apply nearer_qabs; exact Q|reflexivity]|right].
        split; [|reflexivity]. intros N. apply nearer_qabs in N. congruence. }
      clearbody nm. destruct (String.eqb nm "") eqn:E.
      * apply String.eqb_eq in E. subst nm. destruct (IH (Some "")) as (n & bb & -> & [(-> & l1 & m & l2 & name & -> & J & K & M & F) | (-> & F & G)]).
        -- exists n, true. split; [reflexivity|]. left. split; [reflexivity|]. exists ((mot, (a, pa, b, pb)) :: l1), m, l2, name.
           split; [reflexivity|]. split; [exact J|]. split; [exact K|]. split; [exact M|]. constructor; [right; exact I|exact F].
        -- exists n, false. split; [reflexivity|]. right. split; [reflexivity|]. split; [constructor; [right; exact I|exact F]|]. right.
           split; [destruct G as [[-> _] | [-> _]]; reflexivity|]. eexists. split; [left; reflexivity|exact I].
      * exists (Some nm), true. split; [reflexivity|]. left. split; [reflexivity|]. exists [], (mot, (a, pa, b, pb)), l, nm.
        split; [reflexivity|]. split; [exact I|]. split; [apply String.eqb_neq; exact E|]. split; [reflexivity|constructor].
    + assert (Z : silent pos (mot, (a, pa, b, pb))) by exact L.
      destruct (IH n0) as (n & bb & -> & [(-> & l1 & m & l2 & name & -> & J & K & M & F) | (-> & F & G)]).
      * exists n, true. split; [reflexivity|]. left. split; [reflexivity|]. exists ((mot, (a, pa, b, pb)) :: l1), m, l2, name.
        split; [reflexivity|]. split; [exact J|]. split; [exact K|]. split; [exact M|]. constructor; [left; exact Z|exact F].
      * exists n, false. split; [reflexivity|]. right. split; [reflexivity|]. split; [constructor; [left; exact Z|exact F]|].
        destruct G as [[-> G] | [-> (m & J & K)]]; [left; split; [reflexivity|constructor; assumption]|right]. split; [reflexivity|].
        exists m. split; [right; exact J|exact K].
Qed.
Lemma devicename_spec s pos :
  (exists l1 m l2 name, s_motors s = l1 ++ m :: l2 /\ indicates pos m name /\ name <> "" /\ Forall (fun m' => silent pos m' \/ indicates pos m' "") l1 /\
     devicename s pos = Some name) \/
  (Forall (fun m => silent pos m \/ indicates pos m "") (s_motors s) /\
   ((exists d, s_default s = Some d /\ devicename s pos = d) \/
    (s_default s = None /\ Forall (silent pos) (s_motors s) /\ devicename s pos = None) \/
    (s_default s = None /\ (exists m, In m (s_motors s) /\ indicates pos m "") /\ devicename s pos = Some ""))).
Proof.
  unfold devicename. destruct (devicename_from_spec pos (s_motors s) None) as (n & b & -> & [(-> & l1 & m & l2 & name & E & J & K & -> & F) | (-> & F & G)]).
  - left. exists l1, m, l2, name. split; [exact E|]. split; [exact J|]. split; [exact K|]. split; [exact F|reflexivity].
  - right. split; [exact F|]. destruct (s_default s) as [d|]; [left; exists d; split; reflexivity|right].
    destruct G as [[-> G] | [-> G]]; [left|right]; (split; [reflexivity|]; split; [exact G|reflexivity]).
Qed.
Lemma counters_spec dict include exclude c : In c (counters dict include exclude) <->
  exists k l, lookup String.eqb k dict = Some l /\ In c l /\ (forall ks, include = Some ks -> In k ks) /\ (forall ks, exclude = Some ks -> ~ In k ks).
Proof.
  unfold counters. rewrite in_flat_map. split.
  - intros (k & I & H). apply filter_In in I. destruct I as [I X]. destruct (lookup String.eqb k dict) as [l|] eqn:L; [|destruct H].
    exists k, l. split; [exact L|]. split; [exact H|]. split.
    + intros ks ->. exact I.
    + intros ks -> J. apply Bool.negb_true_iff in X. assert (existsb (String.eqb k) ks = true); [|congruence].
      apply existsb_exists. exists k. split; [exact J|apply String.eqb_refl].
  - intros (k & l & L & H & I & X). exists k. rewrite L. split; [|exact H]. apply filter_In. split.
    + destruct include as [ks|]; [exact (I ks eq_refl)|]. clear -L. induction dict as [|[k' v] d IH]; [discriminate|]. cbn in *.
      destruct (String.eqb k k') eqn:E; [left; apply String.eqb_eq in E; congruence|right; exact (IH L)].
    + destruct exclude as [ks|]; [|reflexivity]. apply Bool.negb_true_iff. destruct (existsb (String.eqb k) ks) eqn:E; [|reflexivity].
      apply existsb_exists in E. destruct E as (j & J & E). apply String.eqb_eq in E. subst j. destruct (X ks eq_refl J).
Qed.
Lemma metadata_set s i : metadata (set_metadata s i) = (if String.eqb s "xia" then "xia" else "counters") /\
  metadata (info_setstate (set_metadata s i)) = i_data i /\ info_eqb (set_metadata s i) i = true.
Proof. repeat split. unfold info_eqb. cbn. apply String.eqb_refl. Qed.
Lemma last_app_ne {A} (a b : list A) d : b <> [] -> last (a ++ b) d = last b d.
Proof.
  intros N. induction a as [|x a IH]; [reflexivity|]. cbn [app]. rewrite <- IH. destruct (a ++ b) eqn:E; [|reflexivity].
  apply app_eq_nil in E. destruct E as [_ ->]. destruct N. reflexivity.
Qed.
Lemma datalocation_spec sample dataset subdir : sample <> [] -> dataset <> [] ->
  PathModel.isabs sample = false -> PathModel.ends_slash sample = false -> PathModel.ends_slash dataset = false -> PathModel.isabs subdir = false ->
  let radix := sample ++ Text.ch 95 :: dataset in
  datalocation sample dataset subdir = (radix, sample ++ PathModel.slash :: radix ++ PathModel.slash :: subdir).
Proof.
  intros NS ND A S1 S2 B radix. unfold datalocation.
  assert (R : match sample, dataset with [], [] => [] | [], _ => dataset | _, [] => sample | _, _ => sample ++ [Text.ch 95] ++ dataset end = radix).
  { destruct sample; [destruct NS; reflexivity|]. destruct dataset; [destruct ND; reflexivity|]. reflexivity. }
  rewrite R. f_equal. unfold PathModel.join. cbn [fold_left]. unfold PathModel.join2 at 2.
  assert (AR : PathModel.isabs radix = false). { unfold radix. destruct sample; [destruct NS; reflexivity|exact A]. }
  rewrite AR, S1. assert (E : (match sample with [] => true | _ => false end) = false) by (destruct sample; [destruct NS|]; reflexivity).
  rewrite E. cbn [orb]. unfold PathModel.join2. rewrite B.
  assert (E2 : (match sample ++ PathModel.slash :: radix with [] => true | _ => false end) = false) by (destruct sample; reflexivity).
  assert (E3 : PathModel.ends_slash (sample ++ PathModel.slash :: radix) = false).
  { unfold PathModel.ends_slash. destruct (sample ++ PathModel.slash :: radix) eqn:Q; [reflexivity|]. rewrite <- Q. unfold radix.
    replace (sample ++ PathModel.slash :: sample ++ Text.ch 95 :: dataset) with ((sample ++ PathModel.slash :: sample ++ [Text.ch 95]) ++ dataset)
      by (rewrite <- !app_assoc; cbn; rewrite <- app_assoc; reflexivity).
    rewrite last_app_ne by exact ND. unfold PathModel.ends_slash in S2. destruct dataset; [reflexivity|exact S2]. }
  rewrite E2, E3. cbn [orb]. rewrite <- app_assoc. reflexivity.
Qed.
