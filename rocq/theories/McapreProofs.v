From Verif Require Import McapreSpec.
From Coq Require Import Lia.
Local Open Scope list_scope.
Local Open Scope nat_scope.

Lemma matching_in ma names pats n : In n (matching_names ma names pats) <-> In n names /\ exists p, In p pats /\ ma p n = true.
Proof.
  unfold matching_names. rewrite in_flat_map. split.
  - intros (p & Hp & H). apply filter_In in H as [H1 H2]. eauto.
  - intros (H & p & Hp & Hm). exists p. split; [exact Hp|]. apply filter_In. auto.
Qed.
Lemma count_filter (f : string -> bool) l n : NoDup l -> In n l -> count_occ string_dec (filter f l) n = if f n then 1 else 0.
Proof.
  intros Hd Hi.
  destruct (f n) eqn:E.
  - assert (In n (filter f l)) by (apply filter_In; auto).
    assert (NoDup (filter f l)) by (apply NoDup_filter; exact Hd).
    pose proof (proj1 (NoDup_count_occ string_dec _) H0 n). pose proof (proj1 (count_occ_In string_dec _ _) H). lia.
  - apply count_occ_not_In. intros H. apply filter_In in H as [_ H]. congruence.
Qed.
Lemma matching_count ma names pats n : NoDup names -> In n names ->
  count_occ string_dec (matching_names ma names pats) n = List.length (filter (fun p => ma p n) pats).
Proof.
  intros Hd Hi. induction pats as [|p pats IH]; [reflexivity|].
  unfold matching_names in *. cbn [flat_map filter]. rewrite count_occ_app, IH, count_filter by assumption.
  destruct (ma p n); reflexivity.
Qed.

Definition inner (integer : bool) (preset : Qc) (l : list ((nat -> nat -> Qc) * (nat -> num))) (p c : nat) (x : num) : num :=
  fold_left (fun a dl => store integer (add a (corrected preset (fst dl) (snd dl) p c))) l x.
Lemma inner_spec integer preset block l r p c :
  fold_left (fun r dl => put integer block (fun p c => add (r p c) (corrected preset (fst dl) (snd dl) p c)) r) l r p c =
  if block p c then inner integer preset l p c (r p c) else r p c.
Proof.
  revert r. induction l as [|dl l IH]; intros r; cbn [fold_left].
  - unfold inner; cbn. destruct (block p c); reflexivity.
  - rewrite IH. unfold put. destruct (block p c); reflexivity.
Qed.
Lemma blocks_spec (body : image -> (nat -> nat -> bool) -> image) (V : image) blocks r p c :
  (forall r b, body r b p c = if b p c : bool then V p c else r p c) ->
  (covered blocks p c -> fold_left body blocks r p c = V p c) /\ (~ covered blocks p c -> fold_left body blocks r p c = r p c).
Proof.
  intros H. revert r. induction blocks as [|b blocks IH]; intros r; cbn [fold_left].
  - split; [intros (b & [] & _)|reflexivity].
  - destruct (IH (body r b)) as [IH1 IH2].
    assert (D : covered blocks p c \/ ~ covered blocks p c).
    { destruct (existsb (fun b => b p c) blocks) eqn:E.
      - left. apply existsb_exists in E as (x & ? & ?). exists x; auto.
      - right. intros (x & Hx & E'). enough (existsb (fun b => b p c) blocks = true) by congruence. apply existsb_exists. eauto. }
    split.
    + intros (b' & Hb & E). destruct D as [D|D]; [auto|].
      rewrite IH2 by exact D. rewrite H. destruct Hb as [->|Hb]; [now rewrite E|]. exfalso. apply D. exists b'; auto.
    + intros N. rewrite IH2, H.
      * destruct (b p c) eqn:E; [|reflexivity]. exfalso. apply N. exists b. cbn; auto.
      * intros (x & ? & ?). apply N. exists x. cbn; auto.
Qed.

Lemma livetime_has d lt : has_livetime d lt -> livetime d = Ok (fun p => Some (lt p)).
Proof. unfold livetime. intros [H|[H1 H2]]; [now rewrite H|now rewrite H1, H2]. Qed.
Lemma livetimes_has dets lts : Forall2 has_livetime dets lts -> mapM livetime dets = Ok (map (fun lt p => Some (lt p)) lts).
Proof. induction 1 as [|d lt ds ls H _ IH]; [reflexivity|]. cbn. rewrite (livetime_has _ _ H), IH. reflexivity. Qed.

Lemma add_value integer preset blocks d lt dets lts : has_livetime d lt -> Forall2 has_livetime dets lts -> exists r,
  mca_add integer preset blocks (d :: dets) = Ok r /\
  forall p c, (covered blocks p c -> r p c = inner integer preset (combine (map d_data dets) (map (fun lt p => Some (lt p)) lts)) p c (store integer (corrected preset (d_data d) (fun p => Some (lt p)) p c))) /\
    (~ covered blocks p c -> r p c = Some 0%Qc).
Proof.
  intros H Hs. unfold mca_add. rewrite (livetimes_has (d :: dets) (lt :: lts)) by (constructor; assumption).
  cbn [bind map combine]. eexists. split; [reflexivity|]. intros p c.
  apply (blocks_spec _ (fun p c => inner integer preset (combine (map d_data dets) (map (fun lt p => Some (lt p)) lts)) p c (store integer (corrected preset (d_data d) (fun p => Some (lt p)) p c)))).
  intros r b. rewrite inner_spec. unfold put. destruct (b p c); reflexivity.
Qed.
Lemma corrected_some preset data (lt : nat -> Qc) p c : lt p <> 0%Qc -> corrected preset data (fun p => Some (lt p)) p c = Some (data p c * preset / lt p)%Qc.
Proof. intros H. unfold corrected, div. destruct (Qc_eqb (lt p) 0) eqn:E; [apply Qc_eqb_spec in E; contradiction|reflexivity]. Qed.
Lemma corrected_none preset data (lt : nat -> Qc) p c : lt p = 0%Qc -> corrected preset data (fun p => Some (lt p)) p c = None.
Proof. intros H. unfold corrected, div. apply Qc_eqb_spec in H; now rewrite H. Qed.
Lemma inner_none integer preset l p c : inner integer preset l p c None = None.
Proof. induction l as [|x l IH]; [reflexivity|]. exact IH. Qed.
Lemma inner_sum preset dets lts p c a : Forall2 has_livetime dets lts -> (forall lt, In lt lts -> lt p <> 0%Qc) ->
  inner false preset (combine (map d_data dets) (map (fun lt p => Some (lt p)) lts)) p c (Some a) = Some (a + total preset (combine dets lts) p c)%Qc.
Proof.
  intros H. revert a. induction H as [|d lt ds ls _ _ IH]; intros a Hn.
  - cbn. f_equal. ring.
  - cbn [map combine total]. unfold inner in *. cbn [fold_left fst snd]. rewrite corrected_some by (apply Hn; now left).
    cbn [add store]. rewrite IH by (intros; apply Hn; now right). f_equal. ring.
Qed.
Lemma inner_zero integer preset dets lts p c x : Forall2 has_livetime dets lts -> (exists lt, In lt lts /\ lt p = 0%Qc) ->
  inner integer preset (combine (map d_data dets) (map (fun lt p => Some (lt p)) lts)) p c x = None.
Proof.
  intros H. revert x. induction H as [|d lt ds ls _ _ IH]; intros x (l & Hl & E); [destruct Hl|].
  cbn [map combine]. unfold inner in *. cbn [fold_left fst snd]. destruct Hl as [->|Hl].
  - rewrite corrected_none by exact E. replace (store integer (add x None)) with (@None Qc) by (destruct x; reflexivity). apply inner_none.
  - apply IH. eauto.
Qed.

Lemma add_sum preset blocks d dets lt lts : Forall2 has_livetime (d :: dets) (lt :: lts) -> exists r,
  mca_add false preset blocks (d :: dets) = Ok r /\ forall p c, covered blocks p c ->
  ((forall l, In l (lt :: lts) -> l p <> 0%Qc) -> r p c = Some (total preset (combine (d :: dets) (lt :: lts)) p c)) /\
  ((exists l, In l (lt :: lts) /\ l p = 0%Qc) -> r p c = None).
Proof.
  intros H. inversion_clear H as [|? ? ? ? H1 H2].
  destruct (add_value false preset blocks d lt dets lts H1 H2) as (r & Hr & Hv). exists r. split; [exact Hr|].
  intros p c Hc. rewrite (proj1 (Hv p c) Hc). split.
  - intros Hn. rewrite corrected_some by (apply Hn; now left). cbn [store].
    rewrite inner_sum by (try assumption; intros; apply Hn; now right). reflexivity.
  - intros (l & [->|Hl] & E).
    + rewrite corrected_none by exact E. apply inner_none.
    + apply inner_zero; eauto.
Qed.
Lemma add_missing integer preset blocks dets d : In d dets -> no_counter d -> mca_add integer preset blocks dets = Err RuntimeError.
Proof.
  intros Hi (H1 & H2 & H3). unfold mca_add.
  replace (mapM livetime dets) with (@Err (list (nat -> num)) RuntimeError); [reflexivity|].
  induction dets as [|x dets IH]; [destruct Hi|]. cbn. destruct Hi as [->|Hi].
  - unfold livetime. now rewrite H1, H2, H3.
  - rewrite <- IH by exact Hi. unfold livetime. destruct (d_live_time x), (d_output_live_time x), (d_events x); reflexivity.
Qed.
Lemma events_ignored d ev : d_live_time d = None -> d_output_live_time d = None -> d_events d = Some ev -> exists lt,
  livetime d = Ok lt /\ forall p, (ev p <> 0%Qc -> lt p = Some 1%Qc) /\ (ev p = 0%Qc -> lt p = None).
Proof.
  intros H1 H2 H3. unfold livetime. rewrite H1, H2, H3. eexists. split; [reflexivity|]. intros p. unfold div. split; intros H.
  - destruct (Qc_eqb (ev p) 0) eqn:E; [apply Qc_eqb_spec in E; contradiction|]. f_equal. field. exact H.
  - apply Qc_eqb_spec in H; now rewrite H.
Qed.
Lemma floor_spec (q : Qc) : (Qc_of_Z (Qfloor (this q)) <= q /\ q < Qc_of_Z (Qfloor (this q)) + 1)%Qc.
Proof.
  pose proof (Qfloor_le (this q)) as H1. pose proof (Qlt_floor (this q)) as H2. rewrite inject_Z_plus in H2.
  split; unfold Qcle, Qclt, Qcplus, Qc_of_Z, Q2Qc; cbn [this]; rewrite ?Qred_correct; assumption.
Qed.

Lemma floor_nonneg (q : Qc) : (0 <= q)%Qc -> (0 <= Qc_of_Z (Qfloor (this q)))%Qc.
Proof.
  intros H. assert (0 <= Qfloor (this q))%Z as E by (rewrite <- (Qfloor_Z 0); apply Qfloor_resp_le; exact H).
  rewrite Zle_Qle in E. unfold Qcle, Qc_of_Z, Q2Qc; cbn [this]; rewrite ?Qred_correct; exact E.
Qed.
Lemma store_spec q : (0 <= q)%Qc -> exists z, store true (Some q) = Some z /\ is_integer z /\ (0 <= z)%Qc /\ (z <= q)%Qc /\ (q < z + 1)%Qc.
Proof.
  intros H. cbn. destruct (Qc_ltb q 0) eqn:E; [qc_bool; exfalso; qclra|].
  eexists. split; [reflexivity|]. split; [eexists; reflexivity|]. split; [now apply floor_nonneg|]. apply floor_spec.
Qed.
Fixpoint count (n : nat) : Qc := match n with O => 0%Qc | S n => (1 + count n)%Qc end.
Lemma count_eq n : count n = Qc_of_Z (Z.of_nat n).
Proof.
  induction n as [|n IH]; [reflexivity|]. cbn [count]. rewrite IH. replace (Z.of_nat (S n)) with (1 + Z.of_nat n)%Z by lia.
  apply Qc_is_canon. unfold Qcplus, Qc_of_Z, Q2Qc. cbn [this]. rewrite !Qred_correct, inject_Z_plus. reflexivity.
Qed.
Lemma quotient_nonneg a b d : (0 <= a)%Qc -> (0 <= b)%Qc -> (0 < d)%Qc -> (0 <= a * b / d)%Qc.
Proof.
  intros Ha Hb Hd. unfold Qcdiv.
  assert (0 <= / d)%Qc.
  { unfold Qcle, Qcinv, Q2Qc. cbn [this]. rewrite !Qred_correct. apply Qinv_le_0_compat. apply Qclt_le_weak in Hd. exact Hd. }
  replace 0%Qc with (0 * / d)%Qc by ring. apply Qcmult_le_compat_r; [|assumption].
  replace 0%Qc with (0 * b)%Qc by ring. apply Qcmult_le_compat_r; assumption.
Qed.
Lemma inner_integer preset dets lts p c a : Forall2 has_livetime dets lts -> (0 <= preset)%Qc -> (forall lt, In lt lts -> (0 < lt p)%Qc) -> (forall d, In d dets -> (0 <= d_data d p c)%Qc) -> (0 <= a)%Qc -> is_integer a ->
  exists z, inner true preset (combine (map d_data dets) (map (fun lt p => Some (lt p)) lts)) p c (Some a) = Some z /\ is_integer z /\
  (z <= a + total preset (combine dets lts) p c)%Qc /\ (a + total preset (combine dets lts) p c <= z + count (List.length dets))%Qc.
Proof.
  intros H Hp. revert a. induction H as [|d lt ds ls _ _ IH]; intros a Hl Hd Ha Hi.
  - exists a. cbn. split; [reflexivity|]. split; [exact Hi|]. split; qclra.
  - cbn [map combine total List.length count]. unfold inner in *. cbn [fold_left fst snd].
    assert (0 < lt p)%Qc as Hlt by (apply Hl; now left).
    rewrite corrected_some by (intros E; rewrite E in Hlt; apply (Qclt_not_eq _ _ Hlt); reflexivity).
    cbn [add].
    assert (0 <= d_data d p c * preset / lt p)%Qc as Hq by (apply quotient_nonneg; auto; apply Hd; now left).
    set (q := (d_data d p c * preset / lt p)%Qc) in *.
    destruct (store_spec (a + q)) as (z & Ez & Iz & Nz & L1 & L2); [clear - Ha Hq; qclra|].
    rewrite Ez. destruct (IH z) as (w & Ew & Iw & W1 & W2); auto.
    { intros; apply Hl; now right. } { intros; apply Hd; now right. }
    exists w. split; [exact Ew|]. split; [exact Iw|]. set (t := total _ _ _ _) in *. set (k := count _) in *.
    clear - L1 L2 W1 W2. split; qclra.
Qed.
Lemma add_integer preset blocks d dets lt lts : Forall2 has_livetime (d :: dets) (lt :: lts) -> (0 <= preset)%Qc -> exists r,
  mca_add true preset blocks (d :: dets) = Ok r /\ forall p c, covered blocks p c ->
  (forall l, In l (lt :: lts) -> (0 < l p)%Qc) -> (forall x, In x (d :: dets) -> (0 <= d_data x p c)%Qc) ->
  exists z, r p c = Some z /\ is_integer z /\ (z <= total preset (combine (d :: dets) (lt :: lts)) p c)%Qc /\
  (total preset (combine (d :: dets) (lt :: lts)) p c < z + Qc_of_Z (Z.of_nat (S (List.length dets))))%Qc.
Proof.
  intros H Hp. inversion_clear H as [|? ? ? ? H1 H2].
  destruct (add_value true preset blocks d lt dets lts H1 H2) as (r & Hr & Hv). exists r. split; [exact Hr|].
  intros p c Hc Hl Hd. rewrite (proj1 (Hv p c) Hc).
  assert (0 < lt p)%Qc as Hlt by (apply Hl; now left).
  rewrite corrected_some by (intros E; rewrite E in Hlt; apply (Qclt_not_eq _ _ Hlt); reflexivity).
  assert (0 <= d_data d p c * preset / lt p)%Qc as Hq by (apply quotient_nonneg; auto; apply Hd; now left).
  rewrite <- count_eq. cbn [combine total count]. set (q := (d_data d p c * preset / lt p)%Qc) in *.
  destruct (store_spec q Hq) as (z & Ez & Iz & Nz & L1 & L2). rewrite Ez.
  destruct (inner_integer preset dets lts p c z) as (w & Ew & Iw & W1 & W2); auto.
  { intros; apply Hl; now right. } { intros; apply Hd; now right. }
  exists w. split; [exact Ew|]. split; [exact Iw|]. set (t := total _ _ _ _) in *. set (k := count _) in *.
  clear - L1 L2 W1 W2. split; qclra.
Qed.

Lemma append_inj a b x : String.append a x = String.append b x -> a = b.
Proof.
  assert (L : forall a x, String.length (String.append a x) = String.length a + String.length x) by (clear; induction a as [|? a IH]; intros; cbn; [reflexivity|now rewrite IH]).
  revert b. induction a as [|ch a IH]; intros [|ch' b] H; cbn in H; try reflexivity.
  - exfalso. apply (f_equal String.length) in H. cbn in H. rewrite L in H. lia.
  - exfalso. apply (f_equal String.length) in H. cbn in H. rewrite L in H. lia.
  - inversion H. f_equal. auto.
Qed.
Lemma mem_in {A} n (out : list (string * A)) : mem String.eqb n out = true <-> In n (map fst out).
Proof.
  unfold mem. induction out as [|[k v] out IH]; cbn; [split; [discriminate|tauto]|].
  destruct (String.eqb_spec n k); [subst; tauto|]. rewrite IH. split; [tauto|]. intros [E|]; [congruence|tauto].
Qed.
Lemma dtcor_one_value preset blocks d lt : has_livetime d lt -> exists r, dtcor_one false preset blocks d = Ok r /\
  forall p c, covered blocks p c -> (lt p <> 0%Qc -> r p c = Some (d_data d p c * preset / lt p)%Qc) /\ (lt p = 0%Qc -> r p c = None).
Proof.
  intros H. unfold dtcor_one. rewrite (livetime_has _ _ H). cbn [bind]. eexists. split; [reflexivity|]. intros p c Hc.
  destruct (blocks_spec (fun r block => put false block (corrected preset (d_data d) (fun p => Some (lt p))) r) (corrected preset (d_data d) (fun p => Some (lt p))) blocks empty p c) as [E _].
  { intros r b. unfold put. destruct (b p c); [|reflexivity]. destruct (corrected _ _ _ p c); reflexivity. }
  rewrite (E Hc). split; intros; [now apply corrected_some|now apply corrected_none].
Qed.
Definition out_ok preset blocks suffix (nd : string * detector) (nr : string * image) : Prop :=
  fst nr = String.append (fst nd) suffix /\ dtcor_one false preset blocks (snd nd) = Ok (snd nr).
Lemma dtcor_gen preset blocks suffix dets out :
  Forall (fun nd => exists lt, has_livetime (snd nd) lt) dets -> NoDup (map fst dets) ->
  (forall n, In n (map fst dets) -> ~ In (String.append n suffix) (map fst out)) ->
  exists rs, mca_dtcor false preset blocks suffix dets out = Ok (out ++ rs) /\ Forall2 (out_ok preset blocks suffix) dets rs.
Proof.
  intros H. revert out. induction H as [|[n d] dets (lt & Hlt) _ IH]; intros out Hd Ho; cbn [mca_dtcor].
  - exists []. rewrite app_nil_r. split; [reflexivity|constructor].
  - cbn in Hd. inversion_clear Hd as [|? ? N1 N2].
    destruct (dtcor_one_value preset blocks d lt Hlt) as (r & Hr & _). rewrite Hr. cbn [bind]. unfold new_output.
    destruct (mem String.eqb (String.append n suffix) out) eqn:E.
    { exfalso. apply mem_in in E. apply (Ho n); [now left|exact E]. }
    cbn [bind]. destruct (IH (out ++ [(String.append n suffix, r)]) N2) as (rs & E1 & E2).
    { intros m Hm. rewrite map_app, in_app_iff. cbn. intros [H|[H|[]]].
      - apply (Ho m); [now right|exact H].
      - apply append_inj in H. congruence. }
    exists ((String.append n suffix, r) :: rs). rewrite E1, <- app_assoc. split; [reflexivity|]. constructor; [split; [reflexivity|exact Hr]|exact E2].
Qed.
Lemma dtcor_outputs preset blocks suffix dets lts : dets <> [] -> Forall2 (fun nd lt => has_livetime (snd nd) lt) dets lts -> NoDup (map fst dets) ->
  exists rs, execute false true false preset blocks suffix dets = Ok rs /\
  map fst rs = map (fun nd => String.append (fst nd) suffix) dets /\
  forall k n d lt, nth_error dets k = Some (n, d) -> nth_error lts k = Some lt -> exists r, nth_error (map snd rs) k = Some r /\
  forall p c, covered blocks p c -> (lt p <> 0%Qc -> r p c = Some (d_data d p c * preset / lt p)%Qc) /\ (lt p = 0%Qc -> r p c = None).
Proof.
  intros Hne H Hd. destruct dets as [|nd0 dets0] eqn:ED; [contradiction|]. rewrite <- ED in *.
  replace (execute false true false preset blocks suffix dets) with (mca_dtcor false preset blocks suffix dets []) by (rewrite ED; reflexivity).
  destruct (dtcor_gen preset blocks suffix dets []) as (rs & E1 & E2); auto.
  { clear - H. induction H; constructor; eauto. }
  exists rs. split; [exact E1|]. clear - H E2. revert lts H. induction E2 as [|[n d] [m r] ds rs (O1 & O2) _ IH]; intros lts H.
  - split; [reflexivity|]. intros [|k]; discriminate.
  - inversion H as [|? lt ? ls H1 H2]; subst. destruct (IH _ H2) as [I1 I2]. cbn in O1, O2, H1. split.
    + cbn. now rewrite O1, I1.
    + intros [|k] n' d' lt' K1 K2; cbn in K1, K2.
      * inversion K1; inversion K2; subst. exists r. split; [reflexivity|]. destruct (dtcor_one_value preset blocks d' lt' H1) as (r' & R1 & R2).
        assert (r' = r) as <- by congruence. exact R2.
      * exact (I2 k n' d' lt' K1 K2).
Qed.
Lemma dtcor_double_gen integer preset blocks suffix dets out :
  Forall (fun nd => exists lt, has_livetime (snd nd) lt) dets ->
  ~ NoDup (map fst dets) \/ (exists n, In n (map fst dets) /\ In (String.append n suffix) (map fst out)) ->
  mca_dtcor integer preset blocks suffix dets out = Err ValueError.
Proof.
  intros H. revert out. induction H as [|[n d] dets (lt & Hlt) _ IH]; intros out Ho; cbn [mca_dtcor].
  - exfalso. destruct Ho as [Ho|(n & [] & _)]. apply Ho. constructor.
  - unfold dtcor_one. cbn in Hlt. rewrite (livetime_has _ _ Hlt). cbn [bind]. unfold new_output.
    destruct (mem String.eqb (String.append n suffix) out) eqn:E; [reflexivity|]. cbn [bind]. apply IH. rewrite map_app.
    destruct Ho as [Ho|(m & [Hm|Hm] & Hin)].
    + destruct (in_dec string_dec n (map fst dets)) as [I|I].
      * right. exists n. split; [exact I|]. rewrite in_app_iff. right; now left.
      * left. intros N. apply Ho. cbn. constructor; assumption.
    + cbn in Hm. subst m. exfalso. apply mem_in in Hin. congruence.
    + right. exists m. split; [exact Hm|]. rewrite in_app_iff. now left.
Qed.
Lemma dtcor_double integer preset blocks suffix dets : Forall (fun nd => exists lt, has_livetime (snd nd) lt) dets -> ~ NoDup (map fst dets) ->
  execute false true integer preset blocks suffix dets = Err ValueError.
Proof.
  intros H N. destruct dets; [exfalso; apply N; constructor|]. cbn [execute]. apply dtcor_double_gen; auto.
Qed.
Lemma link_one integer preset blocks suffix n d : execute false false integer preset blocks suffix [(n, d)] = Ok [(String.append "mca" suffix, fun p c => Some (d_data d p c))].
Proof. reflexivity. Qed.
Lemma link_two integer preset blocks suffix x y l : execute false false integer preset blocks suffix (x :: y :: l) = Err ValueError.
Proof.
  destruct x, y. cbn [execute mca_link new_output bind mem lookup app]. unfold new_output at 1. cbn [mem lookup bind app].
  unfold new_output, mem. cbn [lookup]. now rewrite String.eqb_refl.
Qed.
Lemma execute_errors dtcor integer preset blocks suffix add0 x l :
  execute add0 dtcor integer preset blocks suffix [] = Err RuntimeError /\ execute true false integer preset blocks suffix (x :: l) = Err AssertionError.
Proof. split; reflexivity. Qed.
Lemma execute_add integer preset blocks suffix dets r : dets <> [] -> mca_add integer preset blocks (map snd dets) = r ->
  execute true true integer preset blocks suffix dets = (let! x := r in Ok [(String.append "mca" suffix, x)]).
Proof. intros H <-. destruct dets; [contradiction|reflexivity]. Qed.
Lemma dtcor_missing integer preset blocks suffix n d l : no_counter d -> execute false true integer preset blocks suffix ((n, d) :: l) = Err RuntimeError.
Proof. intros (H1 & H2 & H3). cbn. unfold dtcor_one, livetime. now rewrite H1, H2, H3. Qed.
Lemma counter_cases a b c l : counter_output [a] = Ok a /\ counter_output [a; b] = Ok b /\ counter_output (a :: b :: c :: l) = Err ValueError.
Proof. repeat split. Qed.
Lemma execute_sum preset blocks suffix dets lts : dets <> [] -> Forall2 (fun nd lt => has_livetime (snd nd) lt) dets lts -> exists r,
  execute true true false preset blocks suffix dets = Ok [(String.append "mca" suffix, r)] /\ forall p c, covered blocks p c ->
  ((forall l, In l lts -> l p <> 0%Qc) -> r p c = Some (total preset (combine (map snd dets) lts) p c)) /\
  ((exists l, In l lts /\ l p = 0%Qc) -> r p c = None).
Proof.
  intros Hne H. destruct H as [|[n d] lt dets lts H1 H2]; [contradiction|].
  assert (Forall2 has_livetime (d :: map snd dets) (lt :: lts)) as F by (constructor; [exact H1|clear - H2; induction H2; constructor; auto]).
  destruct (add_sum preset blocks _ _ _ _ F) as (r & E & V). exists r. split; [|exact V].
  cbn [execute map snd]. now rewrite E.
Qed.
Lemma execute_integer preset blocks suffix dets lts : dets <> [] -> Forall2 (fun nd lt => has_livetime (snd nd) lt) dets lts -> (0 <= preset)%Qc -> exists r,
  execute true true true preset blocks suffix dets = Ok [(String.append "mca" suffix, r)] /\ forall p c, covered blocks p c ->
  (forall l, In l lts -> (0 < l p)%Qc) -> (forall n d, In (n, d) dets -> (0 <= d_data d p c)%Qc) ->
  exists z, r p c = Some z /\ is_integer z /\ (z <= total preset (combine (map snd dets) lts) p c)%Qc /\
  (total preset (combine (map snd dets) lts) p c < z + Qc_of_Z (Z.of_nat (List.length dets)))%Qc.
Proof.
  intros Hne H Hp. destruct H as [|[n d] lt dets lts H1 H2]; [contradiction|].
  assert (Forall2 has_livetime (d :: map snd dets) (lt :: lts)) as F by (constructor; [exact H1|clear - H2; induction H2; constructor; auto]).
  destruct (add_integer preset blocks _ _ _ _ F Hp) as (r & E & V). exists r. split; [cbn [execute map snd]; now rewrite E|].
  intros p c Hc Hl Hd. cbn [List.length]. destruct (V p c Hc Hl) as (z & Z1 & Z2 & Z3 & Z4).
  - intros x [<-|Hx]; [apply (Hd n); now left|]. apply in_map_iff in Hx as ([m y] & <- & Hy). apply (Hd m). now right.
  - rewrite map_length in Z4. eauto.
Qed.
Lemma execute_missing integer preset blocks suffix dets n d : In (n, d) dets -> no_counter d ->
  execute true true integer preset blocks suffix dets = Err RuntimeError.
Proof.
  intros Hi Hn. rewrite (execute_add integer preset blocks suffix dets (Err RuntimeError)); [reflexivity| |].
  - intros ->. destruct Hi.
  - apply (add_missing _ _ _ _ d); [|exact Hn]. apply in_map_iff. exists (n, d). auto.
Qed.
